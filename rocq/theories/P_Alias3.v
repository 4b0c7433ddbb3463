(** Copies protect objects; references and leaks do not (C73, C74). *)
From Coq Require Import String ZArith Reals Bool Arith Lia Lra List.
From Verif Require Import Base LinAlg M_Validate M_StructUtils P_StructUtils M_Interp M_Spectrum M_Reference M_Dynamics M_Alias S_Alias P_Alias P_Alias2.
Import ListNotations.

#[local] Arguments load _ _ : simpl never.
#[local] Arguments buffer _ _ : simpl never.
#[local] Arguments np_row _ _ : simpl never.
#[local] Arguments np_rows _ _ : simpl never.

(** ** Copies *)
Definition safe_inv (m0 : mem) (s : state) : Prop :=
  sound s /\ length m0 <= length (st_mem s)
  /\ (forall b, b < length m0 -> buffer (st_mem s) b = buffer m0 b)
  /\ (forall h org, In (h, org) (st_held s) -> own org = true -> length m0 <= hbuf h).

Lemma safe_step k m0 s o :
  safe_inv m0 s ->
  (forall i h org, writes_to o = Some i -> nth_error (st_held s) i = Some (h, org) -> own org = true) ->
  safe_inv m0 (step k s o).
Proof.
  intros (Hs & Hl & Hb & Ho) Hw.
  split; [apply step_sound; auto|].
  unfold step. destruct (perform k s o) as [[[m' hs] os]|] eqn:E; [|auto].
  destruct (perform_fine _ _ _ _ _ _ Hs E) as [F1 F2 F3 F4 F5 F6]. cbn.
  split; [lia|split].
  - intros b Hlt. rewrite F4; [apply Hb; auto|lia|].
    intros i [h org] Hi Hn Eb. specialize (Hw _ _ _ Hi Hn).
    apply nth_error_In in Hn. specialize (Ho _ _ Hn Hw). cbn in *; lia.
  - intros h org [Hin|Hin]%in_app_iff Hown; [eauto|].
    rewrite Forall_forall in F5. destruct (F5 _ Hin) as [A|[(h' & A & B)|(A & _)]]; cbn in *.
    + lia.
    + rewrite <- B. eauto.
    + congruence.
Qed.

Lemma safe_run k m0 ops : forall s, safe_inv m0 s -> writes_own k s ops -> safe_inv m0 (run k s ops).
Proof.
  induction ops as [|o ops IH]; intros s H W; cbn; auto.
  destruct W as [W1 W2]. apply IH; auto. apply safe_step; auto.
Qed.

Lemma show_obj_same m m' o :
  (forall b, b < length m -> buffer m' b = buffer m b) -> obj_in m o -> show_obj m' o = show_obj m o.
Proof.
  intros H Hi. assert (L : forall a, aref_in m a -> show_arr m' a = show_arr m a).
  { intros a Ha. unfold show_arr. f_equal. apply load_buffer. apply H; auto. }
  destruct o; cbn in Hi |- *; rewrite ?L, ?H by tauto; auto.
Qed.

Lemma f_C73_history k s ops i o c :
  sound s -> nth_error (st_objs s) i = Some o ->
  writes_own k (from_now s) ops -> call_on i c ->
  answer k (run k (from_now s) ops) c = answer k s c.
Proof.
  intros Hs Hi Hw Hc.
  assert (I : safe_inv (st_mem s) (from_now s)).
  { split; [apply from_now_sound; auto|]. cbn. split; [lia|]. split; auto.
    intros h org Hin Hown. apply in_map_iff in Hin. destruct Hin as [[h' g] [[= <- <-] _]]. discriminate. }
  destruct (safe_run k _ ops _ I Hw) as (Hs' & Hl & Hb & _).
  assert (Hin : obj_in (st_mem s) o) by (apply obj_in_bufs, (objs_in _ i); auto).
  symmetry. eapply f_answer with (i := i) (o := o); auto.
  - apply run_objs; auto.
  - eapply obj_in_len; [|exact Hin]. auto.
  - symmetry. apply show_obj_same; auto.
Qed.

(** ** Writing through an alias *)
Lemma map_set_nth (f : nat -> cell) l p j x : nth_error l p = Some j -> NoDup l ->
  map (fun k => if Nat.eqb k j then x else f k) l = set_nth p x (map f l).
Proof.
  revert p; induction l as [|y l IH]; intros [|p] E N; cbn in *; try discriminate.
  - injection E as ->. inversion N; subst. rewrite Nat.eqb_refl. f_equal.
    apply map_ext_in. intros k Hk. destruct (Nat.eqb_spec k j); auto. subst; contradiction.
  - inversion N; subst. destruct (Nat.eqb_spec y j) as [->|Hn].
    + exfalso. apply H1. eapply nth_error_In; eauto.
    + f_equal. apply IH; auto.
Qed.

Lemma load_store m a a' n p j c :
  ordinary m a -> a_buf a' = a_buf a ->
  nth_error (a_cells a') n = Some j -> nth_error (a_cells a) p = Some j ->
  load (store m a' n c) a = set_nth p c (load m a).
Proof.
  intros (Hi & Hn & Hr) Hb E1 E2. unfold store. rewrite E1, Hb. unfold load.
  assert (Hj : j < length (buffer m (a_buf a))).
  { rewrite Forall_forall in Hr. apply Hr. eapply nth_error_In; eauto. }
  rewrite <- map_set_nth with (j := j); auto.
  apply map_ext. intros q. unfold buffer at 1. rewrite set_nth_same by exact Hi.
  destruct (Nat.eqb_spec q j) as [->|Hq]; [apply set_nth_same; auto|apply set_nth_other; auto].
Qed.

Lemma ordinary_grow m x a : ordinary m a -> ordinary (m ++ x) a.
Proof.
  intros (H1 & H2 & H3). split; [apply aref_in_ext; auto|split; auto].
  rewrite buffer_ext; auto.
Qed.

Lemma nth_error_cells m a n : n < length (load m a) -> exists j, nth_error (a_cells a) n = Some j.
Proof.
  unfold load; rewrite map_length; intros H. apply nth_error_Some in H.
  destruct (nth_error (a_cells a) n); [eauto|congruence].
Qed.

Lemma held_first {A} (l x : list A) h : nth_error (l ++ h :: x) (length l) = Some h.
Proof. rewrite nth_error_app2, Nat.sub_diag by lia. auto. Qed.

Lemma held_new {A} (l x : list A) n h : nth_error x n = Some h -> nth_error (l ++ x) (length l + n) = Some h.
Proof. intros. rewrite nth_error_app2 by lia. replace (length l + n - length l) with n by lia. auto. Qed.

Lemma step_ok k s o m hs os : perform k s o = Ok (m, hs, os) ->
  step k s o = mkState m (st_held s ++ hs) (st_objs s ++ os).
Proof. unfold step; intros ->; auto. Qed.
Lemma step_write k s j a g n c : nth_error (st_held s) j = Some (HArr a, g) ->
  step k s (Write j n c) = mkState (store (st_mem s) a n c) (st_held s) (st_objs s).
Proof. intros H. unfold step; cbn [perform]; unfold arr_at; rewrite H; cbn. rewrite !app_nil_r; auto. Qed.

Lemma prop_answer_copy k s i o p m' b a :
  nth_error (st_objs s) i = Some o ->
  get_property (st_mem s) o p = Ok (m', HArr b) -> load m' b = load (st_mem s) a -> a_shape b = a_shape a ->
  answer k s (Property i p) = Ok [SArr (a_shape a) (load (st_mem s) a)].
Proof.
  intros H E L S. unfold answer, perform, with_obj. rewrite H, E. cbn. rewrite L, S. auto.
Qed.

Ltac prop_read H := unfold answer, perform, with_obj; rewrite H; cbn -[seq]; rewrite ?load_new, ?buffer_new.

Ltac prop_in H Hr := unfold answer, perform, with_obj in Hr; rewrite H in Hr; cbn -[seq] in Hr; rewrite ?load_new in Hr; injection Hr as <- <-.

Lemma f_C73_measure_leaks k s i args n c sh old m' h hs os :
  sound s ->
  (forall o, nth_error (st_objs s) i = Some o -> exists w t, o = OPhononSpectrum w t /\ ordinary (st_mem s) w) ->
  perform k s (Measure i args) = Ok (m', h :: hs, os) ->
  answer k s (Property i PhononWavenumbers) = Ok [SArr sh old] -> n < length old ->
  answer k (run k s [Measure i args; Write (length (st_held s)) n c]) (Property i PhononWavenumbers)
  = Ok [SArr sh (set_nth n c old)].
Proof.
  intros Hs Hob Hp Hr Hn.
  destruct (nth_error (st_objs s) i) as [o|] eqn:Ho.
  2:{ unfold perform, with_obj in Hp; rewrite Ho in Hp; discriminate. }
  destruct (Hob _ eq_refl) as (w & t & -> & Hw).
  prop_in Ho Hr.
  destruct (nth_error_cells _ _ _ Hn) as [j Hj].
  cbn [run fold_left]. rewrite (step_ok _ _ _ _ _ _ Hp).
  unfold perform, with_obj in Hp. rewrite Ho in Hp. cbn [measure] in Hp.
  unfold gives in Hp. apply rbind_ok in Hp. destruct Hp as [x [Hx Hp]].
  apply rbind_ok in Hx. destruct Hx as [ii [_ Hx]]. cbn -[seq] in Hx. injection Hx as <-.
  cbn -[seq] in Hp. injection Hp as <- <- <- <-.
  cbn [fst snd map]. erewrite step_write by (cbn [st_held]; apply held_first). cbn [st_mem st_held st_objs].
  rewrite !app_nil_r.
  match goal with |- answer k ?s2 _ = _ =>
    assert (H2 : nth_error (st_objs s2) i = Some (OPhononSpectrum w t)) by exact Ho end.
  prop_read H2. do 3 f_equal.
  rewrite (load_store _ w w n n j); auto using ordinary_grow.
  rewrite load_ext; auto. apply Hw.
Qed.

Lemma f_C73_indexing_leaks k s i q z n c sh old m' h hs os :
  sound s ->
  (forall o, nth_error (st_objs s) i = Some o -> exists t dt, o = OTrajectory t dt /\ ordinary (st_mem s) t) ->
  perform k s (GetItem i z) = Ok (m', h :: hs, os) ->
  answer k s (Property i PositionsTs) = Ok [SArr sh old] ->
  py_index (hd 0 sh) z = Some q ->
  n < prod_list (tl sh) -> q * prod_list (tl sh) + n < length old ->
  answer k (run k s [GetItem i z; Write (length (st_held s)) n c]) (Property i PositionsTs)
  = Ok [SArr sh (set_nth (q * prod_list (tl sh) + n) c old)].
Proof.
  intros Hs Hob Hp Hr Hz Hn Hlt.
  destruct (nth_error (st_objs s) i) as [o|] eqn:Ho.
  2:{ unfold perform, with_obj in Hp; rewrite Ho in Hp; discriminate. }
  destruct (Hob _ eq_refl) as (t & dt & -> & Hw).
  prop_in Ho Hr.
  destruct (nth_error_cells _ _ _ Hlt) as [j Hj].
  cbn [run fold_left]. rewrite (step_ok _ _ _ _ _ _ Hp).
  unfold perform, with_obj in Hp. rewrite Ho in Hp. cbn [get_item] in Hp. rewrite Hz in Hp.
  cbn in Hp. injection Hp as <- <- <- <-.
  cbn [fst snd map]. erewrite step_write by (cbn [st_held]; apply held_first). cbn [st_mem st_held st_objs].
  rewrite !app_nil_r.
  match goal with |- answer k ?s2 _ = _ =>
    assert (H2 : nth_error (st_objs s2) i = Some (OTrajectory t dt)) by exact Ho end.
  prop_read H2. do 3 f_equal.
  apply (load_store _ t (np_row t q) n _ j); auto.
  unfold np_row, row_cells, row_size; cbn [a_cells].
  assert (F : forall (l : list nat) r, n < r -> nth_error (firstn r l) n = nth_error l n).
  { clear. revert n; induction n as [|n IH]; intros [|x l] [|r] H; cbn; auto; try lia. apply IH; lia. }
  rewrite F by auto.
  assert (G : forall p (l : list nat), nth_error (skipn p l) n = nth_error l (p + n)).
  { clear. induction p as [|p IH]; intros [|x l]; cbn; auto. destruct n; auto. }
  rewrite G. auto.
Qed.

Lemma f_C73_polarizability_ts_leaks k s i n c sh old m' h hs os :
  sound s ->
  (forall o, nth_error (st_objs s) i = Some o -> exists t dt, o = OMDSpectrum t dt /\ ordinary (st_mem s) t) ->
  perform k s (Property i PolarizabilityTs) = Ok (m', h :: hs, os) ->
  answer k s (Property i PolarizabilityTs) = Ok [SArr sh old] -> n < length old ->
  answer k (run k s [Property i PolarizabilityTs; Write (length (st_held s)) n c]) (Property i PolarizabilityTs)
  = Ok [SArr sh (set_nth n c old)].
Proof.
  intros Hs Hob Hp Hr Hn.
  destruct (nth_error (st_objs s) i) as [o|] eqn:Ho.
  2:{ unfold perform, with_obj in Hp; rewrite Ho in Hp; discriminate. }
  destruct (Hob _ eq_refl) as (t & dt & -> & Hw).
  prop_in Ho Hr.
  destruct (nth_error_cells _ _ _ Hn) as [j Hj].
  cbn [run fold_left]. rewrite (step_ok _ _ _ _ _ _ Hp).
  unfold perform, with_obj in Hp. rewrite Ho in Hp. cbn in Hp. injection Hp as <- <- <- <-.
  cbn [fst snd map]. erewrite step_write by (cbn [st_held]; apply held_first). cbn [st_mem st_held st_objs].
  rewrite !app_nil_r.
  match goal with |- answer k ?s2 _ = _ =>
    assert (H2 : nth_error (st_objs s2) i = Some (OMDSpectrum t dt)) by exact Ho end.
  prop_read H2. do 3 f_equal.
  apply (load_store _ t t n n j); auto.
Qed.

Lemma f_C73_phonons_leak k s i j args n c sh old :
  sound s -> j = length (st_objs s) ->
  (forall o, nth_error (st_objs s) i = Some o -> exists r w d, o = OPhonons r w d /\ ordinary (st_mem s) w) ->
  (exists e, perform k s (RamanSpectrum i) = Ok e) ->
  (exists e, perform k (step k s (RamanSpectrum i)) (Measure j args) = Ok e) ->
  answer k s (Property i Wavenumbers) = Ok [SArr sh old] -> n < length old ->
  answer k (run k s [RamanSpectrum i; Measure j args; Write (length (st_held s)) n c]) (Property i Wavenumbers)
  = Ok [SArr sh (set_nth n c old)].
Proof.
  intros Hs Hj Hob [e1 Hp] [e2 Hm] Hr Hn.
  destruct (nth_error (st_objs s) i) as [o|] eqn:Ho.
  2:{ unfold perform, with_obj in Hp; rewrite Ho in Hp; discriminate. }
  destruct (Hob _ eq_refl) as (r & w & d & -> & Hw).
  prop_in Ho Hr.
  destruct (nth_error_cells _ _ _ Hn) as [q Hq].
  cbn [run fold_left]. destruct e2 as [[m2 h2] o2]. rewrite (step_ok _ _ _ _ _ _ Hm).
  unfold perform, with_obj in Hp. rewrite Ho in Hp. cbn [get_raman_spectrum] in Hp.
  unfold makes in Hp. apply rbind_ok in Hp. destruct Hp as [x [Hx Hp]].
  pose proof Hx as Hx0.
  apply rbind_ok in Hx. destruct Hx as [t [Ht Hx]]. cbn -[seq] in Hx.
  unfold make_phonon_spectrum in Hx. cbn -[seq verify_ndarray_shape] in Hx. unbind.
  assert (E1 : step k s (RamanSpectrum i)
    = mkState (st_mem s ++ [snd t]) (st_held s)
        (st_objs s ++ [OPhononSpectrum w (mkAref (length (st_mem s)) (seq 0 (length (snd t))) (fst t))])).
  { unfold step, perform, with_obj. rewrite Ho. cbn [get_raman_spectrum]. unfold makes. rewrite H. cbn [rbind]. rewrite Hx0. cbn -[seq].
    rewrite app_nil_r. auto. }
  rewrite E1 in *. cbn [st_mem st_held st_objs] in *.
  unfold perform, with_obj in Hm. cbn [st_objs] in Hm.
  rewrite nth_error_app2, Nat.sub_diag in Hm by lia. cbn [nth_error measure] in Hm.
  unfold gives in Hm. apply rbind_ok in Hm. destruct Hm as [y [Hy Hm]].
  apply rbind_ok in Hy. destruct Hy as [ii [_ Hy]]. cbn -[seq] in Hy. injection Hy as <-.
  cbn -[seq] in Hm. injection Hm as <- <- <-.
  cbn [fst snd map]. erewrite step_write by (cbn [st_held]; apply held_first). cbn [st_mem st_held st_objs].
  rewrite !app_nil_r.
  match goal with |- answer k ?s2 _ = _ =>
    assert (H2 : nth_error (st_objs s2) i = Some (OPhonons r w d)) end.
  { cbn. rewrite nth_error_app1; auto. apply nth_error_Some; congruence. }
  prop_read H2. do 3 f_equal.
  rewrite (load_store _ w w n n q); auto using ordinary_grow.
  rewrite !load_ext; auto; try apply Hw. apply aref_in_ext, Hw.
Qed.

Lemma f_C73_transformations_leak k s i d0 n c num lat pos rot tra eq pm m' h1 h2 hs os q :
  sound s -> nth_error (st_objs s) i = Some (OStruct num lat pos rot tra eq pm) ->
  ordinary (st_mem s) rot -> a_buf lat <> a_buf rot -> a_buf pos <> a_buf rot ->
  a_buf tra <> a_buf rot -> num <> a_buf rot ->
  perform k s (EquivalentDisplacements i d0) = Ok (m', h1 :: h2 :: hs, os) ->
  (forall l, k_equivalent k (load (st_mem s) pos) (load (st_mem s) rot) (load (st_mem s) tra) pm d0 = Ok l ->
     exists dd l', l = (dd, q) :: l') ->
  tl (a_shape rot) = [3; 3] -> n < 9 -> q * 9 + n < length (load (st_mem s) rot) ->
  show_obj (st_mem (run k s [EquivalentDisplacements i d0; Write (length (st_held s) + 1) n c]))
    (OStruct num lat pos rot tra eq pm)
  = SObj [([], buffer (st_mem s) num); show_arr (st_mem s) lat; show_arr (st_mem s) pos;
          (a_shape rot, set_nth (q * 9 + n) c (load (st_mem s) rot)); show_arr (st_mem s) tra] ([eq], pm, None).
Proof.
  intros Hs Ho Hw N1 N2 N3 N4 Hp Hk Hsh Hn Hlt.
  destruct (nth_error_cells _ _ _ Hlt) as [j Hj].
  pose proof (objs_in _ _ _ Hs Ho) as Hx. cbn in Hx.
  cbn [run fold_left]. rewrite (step_ok _ _ _ _ _ _ Hp).
  unfold perform, with_obj in Hp. rewrite Ho in Hp. cbn [equivalent_displacements] in Hp.
  unfold gives in Hp. apply rbind_ok in Hp. destruct Hp as [x [Hy Hp]].
  apply rbind_ok in Hy. destruct Hy as [l [Hl Hy]]. injection Hy as <-.
  destruct (Hk _ Hl) as (dd & l' & ->). cbn [hand_out np_new] in Hp.
  pose proof (hand_out_grows l' (st_mem s ++ [dd]) rot tra) as [y Hy].
  destruct (hand_out (st_mem s ++ [dd]) rot tra l') as [m2 rest]. cbn in Hy; subst m2.
  cbn [fst snd map] in Hp. injection Hp as <- <- <- <- <-.
  erewrite step_write by (cbn [st_held]; apply held_new; reflexivity). cbn [st_mem st_held st_objs].
  repeat match goal with H : Forall _ (_ :: _) |- _ => inversion H; clear H; subst end.
  rewrite <- app_assoc.
  assert (K : forall b, b < length (st_mem s) -> b <> a_buf rot ->
    buffer (store (st_mem s ++ [dd] ++ y) (np_row rot q) n c) b = buffer (st_mem s) b).
  { intros b Hb Hbn. unfold store. destruct (nth_error (a_cells (np_row rot q)) n); [|apply buffer_ext; auto].
    rewrite set_nth_buffer; [apply buffer_ext; auto|]. exact Hbn. }
  assert (KA : forall a, a_buf a < length (st_mem s) -> a_buf a <> a_buf rot ->
    show_arr (store (st_mem s ++ [dd] ++ y) (np_row rot q) n c) a = show_arr (st_mem s) a).
  { intros a Ha Hb. unfold show_arr. f_equal. apply load_buffer, K; auto. }
  assert (R : row_size rot = 9) by (unfold row_size; rewrite Hsh; reflexivity).
  cbn [show_obj]. rewrite K, (KA lat), (KA pos), (KA tra) by auto.
  unfold show_arr at 3.
  rewrite (load_store _ rot (np_row rot q) n (q * 9 + n) j); auto using ordinary_grow.
  - rewrite load_ext by apply Hw. reflexivity.
  - unfold np_row, row_cells; cbn [a_cells]. rewrite R.
    assert (F : forall (l : list nat) r, n < r -> nth_error (firstn r l) n = nth_error l n).
    { clear. revert n; induction n as [|n IH]; intros [|x l] [|r] H; cbn; auto; try lia. apply IH; lia. }
    rewrite F by auto.
    assert (G : forall p (l : list nat), nth_error (skipn p l) n = nth_error l (p + n)).
    { clear. induction p as [|p IH]; intros [|x l]; cbn; auto. destruct n; auto. }
    rewrite G. auto.
Qed.

(** ** References *)
Lemma run_app k s a b : run k s (a ++ b) = run k (run k s a) b.
Proof. unfold run. apply fold_left_app. Qed.

Lemma f_C74_phonons k s r w d ar aw ad g1 g2 g3 e ops :
  nth_error (st_held s) r = Some (HArr ar, g1) -> nth_error (st_held s) w = Some (HArr aw, g2) ->
  nth_error (st_held s) d = Some (HArr ad, g3) ->
  perform k s (MakePhonons r w d) = Ok e ->
  let i := length (st_objs s) in
  let s' := run k s (MakePhonons r w d :: ops) in
  answer k s' (Property i RefPositions) = Ok [show_val (st_mem s') (HArr ar)]
  /\ answer k s' (Property i Wavenumbers) = Ok [show_val (st_mem s') (HArr aw)]
  /\ answer k s' (Property i Displacements) = Ok [show_val (st_mem s') (HArr ad)].
Proof.
  intros Hr Hw Hd He i s'.
  assert (Hi : nth_error (st_objs s') i = Some (OPhonons ar aw ad)).
  { unfold s'. cbn [run fold_left]. apply run_objs. unfold step. rewrite He.
    unfold perform, arr_at in He. rewrite Hr, Hw, Hd in He. cbn [rbind] in He.
    unfold makes, make_phonons in He. unbind. cbn.
    rewrite nth_error_app2, Nat.sub_diag by lia. auto. }
  repeat split; prop_read Hi; auto.
Qed.

Lemma f_C74_phonon_spectrum k s w t aw at_ g1 g2 e ops :
  nth_error (st_held s) w = Some (HArr aw, g1) -> nth_error (st_held s) t = Some (HArr at_, g2) ->
  perform k s (MakePhononSpectrum w t) = Ok e ->
  let i := length (st_objs s) in
  let s' := run k s (MakePhononSpectrum w t :: ops) in
  answer k s' (Property i PhononWavenumbers) = Ok [show_val (st_mem s') (HArr aw)]
  /\ answer k s' (Property i RamanTensors) = Ok [show_val (st_mem s') (HArr at_)].
Proof.
  intros Hw Ht He i s'.
  assert (Hi : nth_error (st_objs s') i = Some (OPhononSpectrum aw at_)).
  { unfold s'. cbn [run fold_left]. apply run_objs. unfold step. rewrite He.
    unfold perform, arr_at in He. rewrite Hw, Ht in He. cbn [rbind] in He.
    unfold makes, make_phonon_spectrum in He. unbind. cbn.
    rewrite nth_error_app2, Nat.sub_diag by lia. auto. }
  repeat split; prop_read Hi; auto.
Qed.

Lemma f_C74_md_spectrum k s t dt at_ g e ops :
  nth_error (st_held s) t = Some (HArr at_, g) ->
  perform k s (MakeMDSpectrum t dt) = Ok e ->
  let i := length (st_objs s) in
  let s' := run k s (MakeMDSpectrum t dt :: ops) in
  answer k s' (Property i PolarizabilityTs) = Ok [show_val (st_mem s') (HArr at_)].
Proof.
  intros Ht He i s'.
  assert (Hi : nth_error (st_objs s') i = Some (OMDSpectrum at_ dt)).
  { unfold s'. cbn [run fold_left]. apply run_objs. unfold step. rewrite He.
    unfold perform, arr_at in He. rewrite Ht in He. cbn [rbind] in He.
    unfold makes, make_md_spectrum in He. unbind. cbn.
    rewrite nth_error_app2, Nat.sub_diag by lia. auto. }
  prop_read Hi; auto.
Qed.

Lemma f_C74_structure k s n l p an al ap g1 g2 g3 e ops :
  nth_error (st_held s) n = Some (HLst an, g1) -> nth_error (st_held s) l = Some (HArr al, g2) ->
  nth_error (st_held s) p = Some (HArr ap, g3) ->
  perform k s (MakeStruct n l p) = Ok e ->
  let i := length (st_objs s) in
  let s' := run k s (MakeStruct n l p :: ops) in
  answer k s' (Property i AtomicNumbers) = Ok [show_val (st_mem s') (HLst an)]
  /\ answer k s' (Property i Lattice) = Ok [show_val (st_mem s') (HArr al)]
  /\ answer k s' (Property i Positions) = Ok [show_val (st_mem s') (HArr ap)]
  /\ exists nops rot tra equiv perms arrays,
       k_spglib k (load (st_mem s) al) (load (st_mem s) ap) (buffer (st_mem s) an) = Some (nops, rot, tra, equiv)
       /\ k_perms k rot tra (load (st_mem s) ap) = Ok perms
       /\ option_map (show_obj (st_mem s')) (nth_error (st_objs s') i)
          = Some (SObj arrays ([equiv], perms, None)).
Proof.
  intros Hn Hl Hp He i s'.
  assert (Hi : exists nops rot tra equiv perms r t,
    k_spglib k (load (st_mem s) al) (load (st_mem s) ap) (buffer (st_mem s) an) = Some (nops, rot, tra, equiv)
    /\ k_perms k rot tra (load (st_mem s) ap) = Ok perms
    /\ nth_error (st_objs s') i = Some (OStruct an al ap r t equiv perms)).
  { unfold perform, arr_at, lst_at in He. rewrite Hn, Hl, Hp in He. cbn [rbind] in He.
    pose proof He as He0.
    unfold makes, make_struct in He.
    apply rbind_ok in He. destruct He as [x [E1 He]].
    destruct (verify_ndarray_shape (a_shape al) [Some 3; Some 3]); [cbn [rbind verify_list_len] in E1|discriminate].
    destruct (verify_ndarray_shape (a_shape ap) _); [cbn [rbind] in E1|discriminate].
    destruct (k_spglib k _ _ _) as [[[[nn rot] tra] equiv]|]; [|discriminate].
    cbn -[seq] in E1. destruct (k_perms k rot tra (load (st_mem s) ap)) as [pm|] eqn:Ek; [|discriminate].
    cbn -[seq] in E1. injection E1 as <-. cbn [fst snd] in He. injection He as He.
    do 7 eexists. split; [reflexivity|]. split; [exact Ek|].
    unfold s'. cbn [run fold_left]. apply run_objs. unfold step, perform, arr_at, lst_at.
    rewrite Hn, Hl, Hp. cbn [rbind]. rewrite He0. subst e. cbn -[seq].
    rewrite nth_error_app2, Nat.sub_diag by lia. reflexivity. }
  destruct Hi as (nn & rot & tra & equiv & perms & r & t & E1 & E2 & Hi).
  repeat split; try (prop_read Hi; auto; fail).
  rewrite Hi. cbn. do 6 eexists. split; [exact E1|]. split; [exact E2|]. reflexivity.
Qed.

Lemma f_C74_write k s i j a org n c p old :
  nth_error (st_held s) j = Some (HArr a, org) -> ordinary (st_mem s) a ->
  (forall s', (exists ops, s' = run k s ops) -> answer k s' (Property i p) = Ok [show_val (st_mem s') (HArr a)]) ->
  old = load (st_mem s) a -> n < length old ->
  answer k (step k s (Write j n c)) (Property i p) = Ok [SArr (a_shape a) (set_nth n c old)].
Proof.
  intros Hj Ha Hr -> Hn.
  rewrite Hr by (exists [Write j n c]; auto).
  unfold step, perform, arr_at. rewrite Hj. cbn. do 3 f_equal.
  destruct (nth_error_cells _ _ _ Hn) as [q Hq]. apply (load_store _ a a n n q); auto.
Qed.

(** ** Trajectories are immune *)
Definition private (b i : nat) (s : state) : Prop :=
  b < length (st_mem s)
  /\ (forall h, In h (st_held s) -> hbuf (fst h) <> b)
  /\ (forall j x, nth_error (st_objs s) j = Some x -> j <> i -> ~ In b (obj_bufs x)).

Lemma private_step k b i t dt s o :
  sound s -> private b i s -> nth_error (st_objs s) i = Some (OTrajectory t dt) -> ~ indexes i o ->
  private b i (step k s o) /\ buffer (st_mem (step k s o)) b = buffer (st_mem s) b.
Proof.
  intros Hs (P1 & P2 & P3) Hi Hn.
  unfold step. destruct (perform k s o) as [[[m' hs] os]|] eqn:E; [|repeat split; auto].
  destruct (perform_fine _ _ _ _ _ _ Hs E) as [F1 F2 F3 F4 F5 F6]. cbn.
  split; [split; [|split]|].
  - cbn; lia.
  - intros h [Hin|Hin]%in_app_iff; cbn in *; [auto|].
    rewrite Forall_forall in F5. destruct (F5 _ Hin) as [A|[(h' & A & B)|(A & j & x & B & C & D & G)]].
    + lia.
    + rewrite <- B. apply (P2 _ A).
    + intros Hb. rewrite Hb in G.
      destruct (Nat.eq_dec j i) as [->|Hji].
      * rewrite Hi in B. injection B as <-.
        destruct o; cbn in C, D, Hn; try discriminate; try contradiction; auto.
        destruct p; discriminate.
      * apply (P3 _ _ B Hji G).
  - intros j x Hj Hji Hin. cbn in Hj.
    destruct (Nat.lt_ge_cases j (length (st_objs s))) as [Hlt|Hge].
    + rewrite nth_error_app1 in Hj by auto. apply (P3 _ _ Hj Hji Hin).
    + rewrite nth_error_app2 in Hj by auto. apply nth_error_In in Hj.
      rewrite Forall_forall in F6. specialize (F6 _ Hj). rewrite Forall_forall in F6.
      destruct (F6 _ Hin) as [A|[(h' & A & B)|(j' & r & w & d & A & B)]].
      * lia.
      * apply (P2 _ A B).
      * destruct (Nat.eq_dec j' i) as [->|Hj'].
        -- rewrite Hi in A; discriminate.
        -- apply (P3 _ _ A Hj'). cbn; auto.
  - apply F4; auto. intros q h Hq Hh. apply P2. eapply nth_error_In; eauto.
Qed.

Lemma private_run k b i t dt ops : forall s,
  sound s -> private b i s -> nth_error (st_objs s) i = Some (OTrajectory t dt) ->
  Forall (fun o => ~ indexes i o) ops ->
  buffer (st_mem (run k s ops)) b = buffer (st_mem s) b.
Proof.
  induction ops as [|o ops IH]; intros s Hs Hp Hi Ho; cbn; auto.
  inversion Ho; subst.
  destruct (private_step k b i t dt s o Hs Hp Hi H1) as [Hp' Hb].
  rewrite <- Hb. apply IH; auto using step_sound, step_objs.
Qed.

Lemma wrapped_cell c : wrapped c (wrap_cell c).
Proof.
  destruct c as [[x|]|z]; cbn; auto. split.
  - unfold wrap. pose proof (archimed x). unfold rfloor. rewrite minus_IZR. lra.
  - eexists; reflexivity.
Qed.

Lemma f_C74_trajectory k s t dt a g e ops :
  sound s -> nth_error (st_held s) t = Some (HArr a, g) ->
  perform k s (MakeTrajectory t dt) = Ok e ->
  let i := length (st_objs s) in
  Forall (fun o => ~ indexes i o) ops ->
  exists contents,
    Forall2 wrapped (load (st_mem s) a) contents
    /\ answer k (run k s (MakeTrajectory t dt :: ops)) (Property i PositionsTs)
       = Ok [SArr (a_shape a) contents].
Proof.
  intros Hs Ht He i Hops.
  set (c := map wrap_cell (load (st_mem s) a)). exists c. split.
  { unfold c. induction (load (st_mem s) a); cbn; constructor; auto using wrapped_cell. }
  pose proof He as He0.
  unfold perform, arr_at in He. rewrite Ht in He. cbn [rbind] in He.
  unfold makes, make_trajectory in He. apply rbind_ok in He. destruct He as [x [E1 He]].
  apply rbind_ok in E1. destruct E1 as [u [_ E1]].
  destruct (Rleb dt 0); [discriminate|]. cbn -[seq] in E1. injection E1 as <-. cbn -[seq] in He.
  injection He as <-. cbn [run fold_left].
  set (s1 := step k s (MakeTrajectory t dt)).
  assert (E1 : s1 = mkState (st_mem s ++ [c]) (st_held s)
     (st_objs s ++ [OTrajectory (mkAref (length (st_mem s)) (seq 0 (length c)) (a_shape a)) dt])).
  { unfold s1, step. rewrite He0. rewrite app_nil_r. reflexivity. }
  assert (Hs1 : sound s1) by (apply step_sound; auto).
  assert (Hi : nth_error (st_objs s1) i
     = Some (OTrajectory (mkAref (length (st_mem s)) (seq 0 (length c)) (a_shape a)) dt)).
  { rewrite E1. cbn -[seq]. unfold i. rewrite nth_error_app2, Nat.sub_diag by lia. reflexivity. }
  assert (Hp : private (length (st_mem s)) i s1).
  { rewrite E1. split; [|split]; cbn -[seq].
    - rewrite app_length; cbn; lia.
    - intros h Hin. destruct Hs as [H _]. rewrite Forall_forall in H. apply H in Hin.
      apply hval_in_buf in Hin. lia.
    - intros j y Hj Hji Hin.
      assert (j < length (st_objs s)).
      { assert (j < length (st_objs s ++ [OTrajectory (mkAref (length (st_mem s)) (seq 0 (length c)) (a_shape a)) dt]))
          by (apply nth_error_Some; congruence).
        rewrite app_length in H; cbn -[seq] in H. unfold i in Hji. lia. }
      rewrite nth_error_app1 in Hj by auto.
      pose proof (objs_in _ _ _ Hs Hj) as Hb. rewrite Forall_forall in Hb. specialize (Hb _ Hin). lia. }
  pose proof (private_run k _ _ _ _ ops _ Hs1 Hp Hi Hops) as Hb.
  pose proof (run_objs k ops _ _ _ Hi) as Hi'.
  fold s1. change (fold_left (step k) ops s1) with (run k s1 ops).
  prop_read Hi'. do 3 f_equal.
  rewrite (load_buffer _ (st_mem s1)) by exact Hb. rewrite E1. cbn [st_mem]. apply load_new.
Qed.
