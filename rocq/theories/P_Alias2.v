(** Where the memory of results comes from. *)
From Coq Require Import String ZArith Reals Bool Arith Lia List.
From Verif Require Import Base LinAlg M_Validate M_Interp M_Spectrum M_Reference M_Dynamics M_Alias S_Alias P_Alias.
Import ListNotations.

Definition hbuf (h : hval) : nat := match h with HArr a => a_buf a | HLst l => l end.
Definition obj_bufs (o : pyobj) : list nat :=
  match o with
  | OStruct n l p r t _ _ => [n; a_buf l; a_buf p; a_buf r; a_buf t]
  | OPhonons r w d => [a_buf r; a_buf w; a_buf d]
  | OTrajectory t _ => [a_buf t]
  | OPhononSpectrum w t => [a_buf w; a_buf t]
  | OMDSpectrum t _ => [a_buf t]
  end.
Lemma obj_in_bufs m o : obj_in m o <-> Forall (fun b => b < length m) (obj_bufs o).
Proof.
  destruct o; cbn; unfold aref_in; split; intros H;
    repeat match goal with H : Forall _ (_ :: _) |- _ => inversion H; clear H; subst end;
    repeat constructor; tauto.
Qed.
Lemma hval_in_buf m h : hval_in m h <-> hbuf h < length m.
Proof. destruct h; cbn; reflexivity. Qed.

(** Calls that hand out memory of the object they are made on *)
Definition leaky (o : op) (x : pyobj) : bool :=
  match o, x with
  | Measure _ _, OPhononSpectrum _ _ => true
  | GetItem _ _, OTrajectory _ _ => true
  | GetSlice _ _ _ _, OTrajectory _ _ => true
  | Property _ PolarizabilityTs, OMDSpectrum _ _ => true
  | EquivalentDisplacements _ _, OStruct _ _ _ _ _ _ _ => true
  | _, _ => false
  end.

(** Where a handed out value may come from *)
Definition val_source (s : state) (o : op) (h : hval * origin) : Prop :=
  length (st_mem s) <= hbuf (fst h)
  \/ (exists h', In (h', snd h) (st_held s) /\ hbuf h' = hbuf (fst h))
  \/ (own (snd h) = false /\
      exists i x, nth_error (st_objs s) i = Some x /\ call_on i o /\ leaky o x = true
                  /\ In (hbuf (fst h)) (obj_bufs x)).
(** Where a buffer of a new object may come from *)
Definition buf_source (s : state) (o : op) (b : nat) : Prop :=
  length (st_mem s) <= b
  \/ (exists h, In h (st_held s) /\ hbuf (fst h) = b)
  \/ (exists i r w d, nth_error (st_objs s) i = Some (OPhonons r w d) /\ a_buf w = b).

Definition untouched (s : state) (o : op) (m' : mem) : Prop :=
  forall b, b < length (st_mem s) ->
    (forall i h, writes_to o = Some i -> nth_error (st_held s) i = Some h -> hbuf (fst h) <> b) ->
    buffer m' b = buffer (st_mem s) b.

Record fine (s : state) (o : op) (m' : mem) (hs : list (hval * origin)) (os : list pyobj) : Prop := mkFine {
  fine_len : length (st_mem s) <= length m';
  fine_hin : Forall (fun h => hval_in m' (fst h)) hs;
  fine_oin : Forall (obj_in m') os;
  fine_kept : untouched s o m';
  fine_hsrc : Forall (val_source s o) hs;
  fine_osrc : Forall (fun x => Forall (buf_source s o) (obj_bufs x)) os }.

Lemma untouched_grow s o x : untouched s o (st_mem s ++ x).
Proof. intros b Hb _. apply buffer_ext; auto. Qed.
Lemma untouched_same s o : untouched s o (st_mem s).
Proof. intros b Hb _; auto. Qed.

Lemma arr_at_in s i a : arr_at s i = Ok a -> exists org, nth_error (st_held s) i = Some (HArr a, org).
Proof.
  unfold arr_at; destruct (nth_error (st_held s) i) as [[[a'|l] org]|]; try discriminate.
  intros [= ->]; eauto.
Qed.
Lemma lst_at_in s i a : lst_at s i = Ok a -> exists org, nth_error (st_held s) i = Some (HLst a, org).
Proof.
  unfold lst_at; destruct (nth_error (st_held s) i) as [[[a'|l] org]|]; try discriminate.
  intros [= ->]; eauto.
Qed.
Lemma held_in s i h org : sound s -> nth_error (st_held s) i = Some (h, org) -> hbuf h < length (st_mem s).
Proof.
  intros [H _] E. apply nth_error_In in E. rewrite Forall_forall in H. apply H in E.
  rewrite <- hval_in_buf; auto.
Qed.
Lemma objs_in s i x : sound s -> nth_error (st_objs s) i = Some x ->
  Forall (fun b => b < length (st_mem s)) (obj_bufs x).
Proof.
  intros [_ H] E. apply nth_error_In in E. rewrite Forall_forall in H.
  apply obj_in_bufs; auto.
Qed.
Lemma held_source s o i h org : nth_error (st_held s) i = Some (h, org) -> buf_source s o (hbuf h).
Proof. intros E. right; left. exists (h, org). split; [eapply nth_error_In; eauto|auto]. Qed.

Lemma set_nth_buffer m b c j : j <> b -> buffer (set_nth b c m) j = buffer m j.
Proof. intros; unfold buffer; apply set_nth_other; auto. Qed.

Lemma rbind_ok {A B} (r : res A) (f : A -> res B) b : rbind r f = Ok b -> exists a, r = Ok a /\ f a = Ok b.
Proof. destruct r; cbn; [eauto|discriminate]. Qed.
Ltac fcons := repeat (apply Forall_cons); try apply Forall_nil; auto.
Ltac tidy := try solve
  [ rewrite ?app_length; cbn; lia | apply untouched_grow | apply untouched_same
  | fcons; cbn; unfold aref_in; cbn; rewrite ?app_length; cbn; lia
  | fcons; left; cbn; rewrite ?app_length; cbn; lia ].
Ltac unbind :=
  repeat match goal with
  | H : rbind ?r _ = Ok _ |- _ => apply rbind_ok in H; destruct H as [? [? H]]
  | H : Ok _ = Ok _ |- _ => injection H as; subst
  | H : Err _ = Ok _ |- _ => discriminate H
  end.

Lemma hand_out_sources s x d0 r t os l : forall m m' hs,
  length (st_mem s) <= length m -> a_buf r < length (st_mem s) -> a_buf t < length (st_mem s) ->
  nth_error (st_objs s) x = Some os -> leaky (EquivalentDisplacements x d0) os = true ->
  In (a_buf r) (obj_bufs os) -> In (a_buf t) (obj_bufs os) ->
  hand_out m r t l = (m', hs) ->
  (exists y, m' = m ++ y) /\ Forall (fun h => hval_in m' h) hs
  /\ Forall (fun h => val_source s (EquivalentDisplacements x d0) (h, Called)) hs.
Proof.
  induction l as [|[d i] l IH]; intros m m' hs Hm Hr Ht Ho Hl Ir It E; cbn in E.
  - injection E as <- <-. repeat split; auto. exists []; rewrite app_nil_r; auto.
  - destruct (hand_out (m ++ [d]) r t l) as [m2 rest] eqn:E2.
    injection E as <- <-.
    destruct (IH (m ++ [d]) m2 rest) as [[y Hy] [H1 H2]]; auto.
    { rewrite app_length; lia. }
    subst m2. split; [exists ([d] ++ y); rewrite app_assoc; auto|]. split.
    + repeat constructor; auto; cbn; unfold aref_in; cbn; rewrite !app_length; cbn; lia.
    + fcons.
      * left; cbn; lia.
      * right; right. split; auto. exists x, os. repeat split; auto.
      * right; right. split; auto. exists x, os. repeat split; auto.
Qed.

Lemma give_copy_fine s o x p m' h :
  give_copy (st_mem s) x = Ok (m', h) ->
  fine s o m' [(h, Read p)] [].
Proof.
  unfold give_copy, np_copy, np_new. intros E; cbn in E; injection E as <- <-.
  constructor; tidy.
Qed.

Ltac held_facts Hs :=
  repeat match goal with
  | E : arr_at ?s ?i = Ok ?a |- _ =>
      apply arr_at_in in E; destruct E as [? E]; pose proof (held_in _ _ _ _ Hs E)
  | E : lst_at ?s ?i = Ok ?a |- _ =>
      apply lst_at_in in E; destruct E as [? E]; pose proof (held_in _ _ _ _ Hs E)
  end.
Ltac src := first
  [ left; cbn; rewrite ?app_length; cbn; lia
  | match goal with E : nth_error (st_held ?s) ?i = Some (HArr ?a, ?g) |- buf_source ?s ?o (a_buf ?a) =>
      exact (held_source s o i (HArr a) g E) end
  | match goal with E : nth_error (st_held ?s) ?i = Some (HLst ?a, ?g) |- buf_source ?s ?o ?a =>
      exact (held_source s o i (HLst a) g E) end ].

Ltac osrc := try solve [fcons; cbn; fcons; src | fcons; cbn; unfold aref_in; cbn; rewrite ?app_length; cbn; tauto].

Lemma perform_fine k s o m' hs os :
  sound s -> perform k s o = Ok (m', hs, os) -> fine s o m' hs os.
Proof.
  intros Hs E.
  destruct o; cbn [perform] in E; unfold gives1, gives, makes, with_obj in E.
  - (* NewArray *) cbn in E; injection E as <- <- <-.
    constructor; tidy.
  - (* NewList *) cbn in E; injection E as <- <- <-.
    constructor; tidy.
  - (* View *)
    destruct (nth_error (st_held s) i) as [[[a|l] org]|] eqn:Ei; try discriminate.
    cbn in E; injection E as <- <- <-.
    pose proof (held_in _ _ _ _ Hs Ei) as Hb.
    constructor; auto.
    + apply untouched_same.
    + constructor; auto. right; left. exists (HArr a); split; auto. eapply nth_error_In; eauto.
  - (* Write *)
    unbind. held_facts Hs. constructor; auto.
    + unfold store. destruct (nth_error (a_cells x) k0); auto. rewrite set_nth_length; auto.
    + intros b Hb Hw. unfold store. destruct (nth_error (a_cells x) k0); auto.
      apply set_nth_buffer. specialize (Hw i (HArr x, x0) eq_refl H). cbn in Hw. congruence.
  - (* SetList *)
    unbind. held_facts Hs. constructor; auto.
    + rewrite set_nth_length; auto.
    + intros b Hb Hw. apply set_nth_buffer. specialize (Hw i (HLst x, x0) eq_refl H). cbn in Hw. congruence.
  - (* MakeStruct *)
    apply rbind_ok in E; destruct E as [n' [En E]].
    apply rbind_ok in E; destruct E as [l' [El E]].
    apply rbind_ok in E; destruct E as [p' [Ep E]].
    apply rbind_ok in E; destruct E as [[m1 ob] [E1 E]]. injection E as <- <- <-.
    unfold make_struct in E1.
    destruct (verify_ndarray_shape (a_shape l') _); [cbn [rbind verify_list_len] in E1|discriminate].
    destruct (verify_ndarray_shape (a_shape p') _); [cbn [rbind] in E1|discriminate].
    destruct (k_spglib k _ _ _) as [[[[n rot] tra] equiv]|]; [|discriminate].
    cbn -[seq] in E1. destruct (k_perms k _ _ _) as [pm|]; [|discriminate].
    cbn -[seq] in E1. injection E1 as <- <-. held_facts Hs. cbn in H, H0, H1.
    rewrite <- app_assoc. constructor; tidy; osrc.
  - (* MakePhonons *)
    apply rbind_ok in E; destruct E as [r' [Er E]].
    apply rbind_ok in E; destruct E as [w' [Ew E]].
    apply rbind_ok in E; destruct E as [d' [Ed E]].
    apply rbind_ok in E; destruct E as [[m1 ob] [E1 E]]. injection E as <- <- <-.
    unfold make_phonons in E1. unbind. held_facts Hs. cbn in H2, H3, H4. constructor; tidy; osrc.
  - (* MakeTrajectory *)
    apply rbind_ok in E; destruct E as [t' [Et E]].
    apply rbind_ok in E; destruct E as [[m1 ob] [E1 E]]. injection E as <- <- <-.
    unfold make_trajectory in E1. apply rbind_ok in E1; destruct E1 as [u [_ E1]].
    destruct (Rleb timestep 0); [discriminate|]. cbn -[seq] in E1. injection E1 as <- <-.
    held_facts Hs. constructor; tidy; osrc.
  - (* MakePhononSpectrum *)
    apply rbind_ok in E; destruct E as [w' [Ew E]].
    apply rbind_ok in E; destruct E as [t' [Et E]].
    apply rbind_ok in E; destruct E as [[m1 ob] [E1 E]]. injection E as <- <- <-.
    unfold make_phonon_spectrum in E1. unbind. held_facts Hs. cbn in H1, H2. constructor; tidy; osrc.
  - (* MakeMDSpectrum *)
    apply rbind_ok in E; destruct E as [t' [Et E]].
    apply rbind_ok in E; destruct E as [[m1 ob] [E1 E]]. injection E as <- <- <-.
    unfold make_md_spectrum in E1. unbind. held_facts Hs. cbn in H0. constructor; tidy; osrc.
  - (* Property *)
    destruct (nth_error (st_objs s) o) as [x|] eqn:Eo; [|discriminate].
    apply rbind_ok in E; destruct E as [[m1 h] [E1 E]]. injection E as <- <- <-.
    pose proof (objs_in _ _ _ Hs Eo) as Hx.
    destruct x, p; cbn [get_property] in E1; try discriminate;
      try (eapply give_copy_fine; exact E1).
    + injection E1 as <- <-. constructor; tidy; osrc.
    + injection E1 as <- <-. cbn in Hx. inversion Hx; subst. constructor; tidy; osrc.
      * constructor; auto. right; right. split; auto. exists o, (OMDSpectrum polarizability_ts timestep).
        cbn; auto.
  - (* EquivalentDisplacements *)
    destruct (nth_error (st_objs s) o) as [x|] eqn:Eo; [|discriminate].
    apply rbind_ok in E; destruct E as [[m1 l] [E1 E]]. injection E as <- <- <-.
    pose proof (objs_in _ _ _ Hs Eo) as Hx.
    destruct x; cbn [equivalent_displacements] in E1; try discriminate.
    apply rbind_ok in E1; destruct E1 as [dl [_ E1]]. injection E1 as E1.
    cbn in Hx. repeat match goal with H : Forall _ (_ :: _) |- _ => inversion H; clear H; subst end.
    destruct (hand_out_sources s o displacement rotations translations _ dl _ _ _ (le_n _)
                ltac:(auto) ltac:(auto) Eo eq_refl ltac:(cbn; auto 6) ltac:(cbn; auto 6) E1)
      as [[y ->] [Hv1 Hv2]].
    constructor; tidy; osrc.
    + cbn [fst snd]. apply Forall_map. cbn. auto.
    + cbn [fst snd]. apply Forall_map. auto.
  - (* RamanSpectrum *)
    destruct (nth_error (st_objs s) o) as [x|] eqn:Eo; [|discriminate].
    apply rbind_ok in E; destruct E as [[m1 ob] [E1 E]]. injection E as <- <- <-.
    pose proof (objs_in _ _ _ Hs Eo) as Hx.
    destruct x; cbn [get_raman_spectrum] in E1; try discriminate.
    + apply rbind_ok in E1; destruct E1 as [t [_ E1]]. cbn -[seq] in E1.
      unfold make_phonon_spectrum in E1. cbn -[seq verify_ndarray_shape] in E1. unbind.
      cbn in Hx. repeat match goal with H : Forall _ (_ :: _) |- _ => inversion H; clear H; subst end.
      constructor; tidy; osrc.
      * constructor; auto. cbn. fcons; [|src].
        right; right. exists o; eauto.
    + apply rbind_ok in E1; destruct E1 as [t [_ E1]]. cbn -[seq] in E1.
      unfold make_md_spectrum in E1. cbn -[seq verify_ndarray_shape] in E1. unbind.
      constructor; tidy; osrc.
  - (* GetItem *)
    destruct (nth_error (st_objs s) o) as [x|] eqn:Eo; [|discriminate].
    pose proof (objs_in _ _ _ Hs Eo) as Hx.
    apply rbind_ok in E; destruct E as [[m1 h] [E1 E]]. injection E as <- <- <-.
    apply rbind_ok in E1; destruct E1 as [h' [E1 E2]]. injection E2 as <- <-.
    destruct x; cbn [get_item] in E1; try discriminate.
    destruct (py_index _ _); [|discriminate]. injection E1 as <-.
    cbn in Hx; inversion Hx; subst. constructor; tidy; osrc.
    + constructor; auto. right; right. split; auto. exists o, (OTrajectory positions_ts timestep). cbn; auto.
  - (* GetSlice *)
    destruct (nth_error (st_objs s) o) as [x|] eqn:Eo; [|discriminate].
    pose proof (objs_in _ _ _ Hs Eo) as Hx.
    apply rbind_ok in E; destruct E as [[m1 h] [E1 E]]. injection E as <- <- <-.
    apply rbind_ok in E1; destruct E1 as [h' [E1 E2]]. injection E2 as <- <-.
    destruct x; cbn [get_slice] in E1; try discriminate.
    cbv zeta in E1.
    match type of E1 with (if ?c then _ else _) = _ => destruct c; [discriminate|] end.
    destruct (slice_bounds _ _ _ _). injection E1 as <-.
    cbn in Hx; inversion Hx; subst. constructor; tidy; osrc.
    + constructor; auto. right; right. split; auto. exists o, (OTrajectory positions_ts timestep). cbn; auto.
  - (* Measure *)
    destruct (nth_error (st_objs s) o) as [x|] eqn:Eo; [|discriminate].
    pose proof (objs_in _ _ _ Hs Eo) as Hx.
    apply rbind_ok in E; destruct E as [[m1 h] [E1 E]]. injection E as <- <- <-.
    destruct x; cbn [measure] in E1; try discriminate.
    + apply rbind_ok in E1; destruct E1 as [t [_ E1]]. cbn -[seq] in E1. injection E1 as <- <-.
      cbn in Hx. repeat match goal with H : Forall _ (_ :: _) |- _ => inversion H; clear H; subst end.
      cbn [fst snd map]. constructor; tidy; osrc.
      * fcons.
        -- right; right. split; auto. exists o, (OPhononSpectrum wavenumbers tensors). cbn; auto.
        -- left; cbn; lia.
    + apply rbind_ok in E1; destruct E1 as [t [_ E1]]. cbn -[seq] in E1. injection E1 as <- <-.
      cbn [fst snd map]. rewrite <- app_assoc. constructor; tidy; osrc.
Qed.

Lemma step_sound k s o : sound s -> sound (step k s o).
Proof.
  intros Hs. unfold step. destruct (perform k s o) as [[[m hs] os]|] eqn:E; auto.
  destruct (perform_fine _ _ _ _ _ _ Hs E). destruct Hs as [H1 H2].
  split; cbn; apply Forall_app; split; auto.
  - eapply Forall_impl; [|exact H1]; intros; eapply hval_in_len; eauto.
  - eapply Forall_impl; [|exact H2]; intros; eapply obj_in_len; eauto.
Qed.
Lemma run_sound k ops : forall s, sound s -> sound (run k s ops).
Proof. induction ops as [|o ops IH]; intros s H; cbn; auto. apply IH, step_sound; auto. Qed.
Lemma from_now_sound s : sound s -> sound (from_now s).
Proof. intros [H1 H2]; split; auto. cbn. apply Forall_map; auto. Qed.

Lemma step_objs k s o i x : nth_error (st_objs s) i = Some x -> nth_error (st_objs (step k s o)) i = Some x.
Proof.
  intros H. unfold step. destruct (perform k s o) as [[[m hs] os]|]; auto. cbn.
  rewrite nth_error_app1; auto. apply nth_error_Some; congruence.
Qed.
Lemma run_objs k ops : forall s i x,
  nth_error (st_objs s) i = Some x -> nth_error (st_objs (run k s ops)) i = Some x.
Proof. induction ops as [|o ops IH]; intros; cbn; auto. apply IH, step_objs; auto. Qed.
Lemma step_held k s o i x : nth_error (st_held s) i = Some x -> nth_error (st_held (step k s o)) i = Some x.
Proof.
  intros H. unfold step. destruct (perform k s o) as [[[m hs] os]|]; auto. cbn.
  rewrite nth_error_app1; auto. apply nth_error_Some; congruence.
Qed.
Lemma run_held k ops : forall s i x,
  nth_error (st_held s) i = Some x -> nth_error (st_held (run k s ops)) i = Some x.
Proof. induction ops as [|o ops IH]; intros; cbn; auto. apply IH, step_held; auto. Qed.
