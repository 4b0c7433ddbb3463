(** Proofs about models in memory: sharing and independence (C87). *)
From Coq Require Import String ZArith Reals Bool Arith List Lia.
From Verif Require Import Base LinAlg M_Validate M_StructUtils M_Reference M_Interp M_Art M_Alias S_Interp
  P_Interp P_Interp2 P_Art M_Shared S_Alias S_Shared P_Alias P_Alias3 P_Shared.
Import ListNotations.

#[local] Arguments load _ _ : simpl never.
#[local] Arguments buffer _ _ : simpl never.
#[local] Arguments np_row _ _ : simpl never.

Lemma history_app spl w a b : history spl w (a ++ b) = history spl (history spl w a) b.
Proof. unfold history. apply fold_left_app. Qed.

(** ** Contents depend on buffers only *)
Definition uses (o : pmodel) (b : nat) : Prop :=
  b = a_buf (pm_pol o) \/ b = a_buf (pm_mask o) \/ exists a, In a (pm_basis o) /\ b = a_buf a.
Lemma contents_same m m' o : (forall b, uses o b -> buffer m' b = buffer m b) -> contents m' o = contents m o.
Proof.
  intros H. unfold contents. f_equal.
  - f_equal. apply load_buffer, H. left; auto.
  - apply map_ext_in. intros a Ha. f_equal. apply load_buffer, H. right; right; eauto.
  - f_equal. apply load_buffer, H. right; left; auto.
Qed.
Lemma good_in m a : good m a -> a_buf a < length m.
Proof. intros ((H & _) & _). exact H. Qed.
Lemma uses_in m o b : good_model m o -> uses o b -> b < length m.
Proof.
  intros (G1 & _ & G3 & G4 & _) [->|[->|(a & Ha & ->)]]; try (apply good_in; auto).
  rewrite Forall_forall in G3. apply G3; auto.
Qed.
Lemma contents_ext m x o : good_model m o -> contents (m ++ x) o = contents m o.
Proof. intros G. apply contents_same. intros b U. apply buffer_ext. eapply uses_in; eauto. Qed.

(** ** The calls do what they do to values *)
Lemma model_at_inv w j v : model_at w j = Some v -> exists o, nth_error (w_models w) j = Some o /\ v = contents (w_mem w) o.
Proof. unfold model_at. destruct (nth_error (w_models w) j) as [o|]; [|discriminate]. intros [= <-]. eauto. Qed.
Lemma array_at_inv w i sh x : array_at w i = Some (sh, x) -> exists a, nth_error (w_held w) i = Some a /\ sh = a_shape a /\ x = load (w_mem w) a.
Proof. unfold array_at. destruct (nth_error (w_held w) i) as [a|]; [|discriminate]. intros [= <- <-]. eauto. Qed.
Lemma model_of w j o : nth_error (w_models w) j = Some o -> model w j = Ok o.
Proof. unfold model. intros ->. auto. Qed.
Lemma held_of w i a : nth_error (w_held w) i = Some a -> held w i = Ok a.
Proof. unfold held. intros ->. auto. Qed.
Lemma set_nth_at {A} (l : list A) j x y : nth_error l j = Some y -> nth_error (set_nth j x l) j = Some x.
Proof.
  intros H. rewrite set_nth_nth, Nat.eqb_refl. assert (j < length l) by (apply nth_error_Some; congruence).
  destruct (Nat.ltb_spec j (length l)); [auto|lia].
Qed.
Lemma last_nth {A} (l : list A) x : nth_error (l ++ [x]) (length l) = Some x.
Proof. rewrite nth_error_app2, Nat.sub_diag by lia. auto. Qed.

Lemma made_rows m l r m' : Forall2 (made m m') r (map basis_array l) ->
  map (fun b => rows_of (load m' b)) r = l.
Proof.
  intros F. remember (map basis_array l) as q eqn:E. revert l E. induction F as [|a p r q M F IH]; intros [|b l] E;
    try discriminate; simpl; auto. injection E as -> ->. f_equal; [|apply IH; auto].
  destruct M as (_ & _ & -> & _). simpl. apply rows_of_data.
Qed.

Lemma add_agrees spl w j o a : sound w -> nth_error (w_models w) j = Some o ->
  let '((v', _), r) := run_adding (pm_art o) a (contents (w_mem w) o) in
  outcome spl w (Add j a) = r /\ model_at (after spl w (Add j a)) j = Some v'.
Proof.
  intros S H. unfold outcome, after. cbn [perform]. rewrite (model_of _ _ _ H). cbn [rbind].
  destruct (run_adding _ _ _) as [[v' ws] r] eqn:R. pose proof R as R'.
  apply run_adding_cases in R as [(e & -> & ->)|(-> & bs & sps & ->)]; cbn [rbind].
  - split; auto. unfold model_at. rewrite H. auto.
  - assert (Go : good_model (w_mem w) o) by (destruct S; eapply nth_good; eauto).
    cbn [im_basis appended contents]. rewrite <- (map_length (fun b => rows_of (load (w_mem w) b)) (pm_basis o)).
    rewrite skipn_app, skipn_all, Nat.sub_diag. cbn [skipn app].
    destruct (new_arrays_spec (map basis_array bs) (w_mem w)) as (rs & N & F). rewrite N.
    unfold np_new. split; auto. unfold model_at, put_model. cbn [w_models w_mem].
    rewrite (set_nth_at _ _ _ _ H). cbn [option_map]. f_equal.
    set (l := map snd _) in *. set (data := map bool_cell _) in *. unfold contents. cbn [pm_ref pm_pol pm_dummy pm_basis pm_interp pm_mask].
    replace ((w_mem w ++ l) ++ [data]) with (w_mem w ++ l ++ [data]) by (rewrite app_assoc; auto).
    destruct Go as (G1 & _ & G3 & _). unfold appended. cbn [im_ref im_refpol im_dummy im_basis im_interp im_mask contents]. f_equal.
    + rewrite load_ext; auto. apply good_in; auto.
    + rewrite map_app. f_equal.
      * apply map_ext_in. intros b Hb. rewrite load_ext; auto. rewrite Forall_forall in G3. apply good_in, G3; auto.
      * rewrite <- (made_rows _ _ _ _ F) at 1. apply map_ext_in. intros b Hb. rewrite app_assoc, load_ext; auto.
        apply basis_good in F. rewrite Forall_forall in F. apply good_in, F; auto.
    + rewrite app_assoc, load_new. unfold data. rewrite map_flag_bool. auto.
Qed.

Lemma mask_shape w j o : sound w -> nth_error (w_models w) j = Some o ->
  a_shape (pm_mask o) = [length (im_mask (contents (w_mem w) o))].
Proof.
  intros [_ S] H. destruct (nth_good _ _ _ _ S H) as (_ & _ & _ & (_ & G4) & n & G5).
  rewrite G5 in *. cbn [im_mask contents]. rewrite map_length, load_length, G4. cbn. f_equal. lia.
Qed.
Lemma set_mask_agrees spl w j o i a : sound w -> nth_error (w_models w) j = Some o -> nth_error (w_held w) i = Some a ->
  let '((v', _), r) := set_mask (a_shape a) (map flag (load (w_mem w) a)) (contents (w_mem w) o) in
  outcome spl w (SetMask j i) = r /\ model_at (after spl w (SetMask j i)) j = Some v'.
Proof.
  intros S H A. unfold outcome, after. cbn [perform]. rewrite (model_of _ _ _ H), (held_of _ _ _ A). cbn [rbind].
  rewrite (mask_shape w j o) by auto. cbn [map]. unfold set_mask, bind, get, lift, put.
  destruct (verify_ndarray_shape _ _) as [[]|e]; cbn [rbind].
  - split; auto. unfold model_at, put_model. cbn [w_models w_mem]. rewrite (set_nth_at _ _ _ _ H). auto.
  - split; auto. unfold model_at. rewrite H. auto.
Qed.

Lemma repeat_flag c n : map flag (repeat c n) = repeat (flag c) n.
Proof. induction n; simpl; congruence. Qed.
Lemma const_map {A} (l : list A) : map (fun _ => false) l = repeat false (length l).
Proof. induction l; simpl; congruence. Qed.
Lemma unmask_agrees spl w j o : sound w -> nth_error (w_models w) j = Some o ->
  outcome spl w (Unmask j) = Ok tt /\
  mask_at (after spl w (Unmask j)) j = Some (map (fun _ => false) (im_mask (contents (w_mem w) o))).
Proof.
  intros S H. unfold outcome, after. cbn [perform]. rewrite (model_of _ _ _ H). cbn [rbind]. split; auto.
  unfold mask_at, model_at. cbn [w_models w_mem]. rewrite H. cbn [option_map contents im_mask]. f_equal.
  rewrite fill_load; [|destruct S as [_ S]; apply (nth_good _ _ _ _ S H)].
  rewrite repeat_flag, const_map, map_length, load_length. auto.
Qed.

Lemma get_masked_agrees spl w j o idx : sound w -> nth_error (w_models w) j = Some o ->
  match get_masked_model (contents (w_mem w) o) idx with
  | Ok v' => outcome spl w (GetMasked j idx) = Ok tt /\
             model_at (after spl w (GetMasked j idx)) (length (w_models w)) = Some v'
  | Err e => outcome spl w (GetMasked j idx) = Err e
  end.
Proof.
  intros S H. unfold outcome, after. cbn [perform]. rewrite (model_of _ _ _ H). cbn [rbind].
  assert (Go : good_model (w_mem w) o) by (destruct S as [_ S]; eapply nth_good; eauto).
  pose proof Go as (G1 & G2 & G3 & G4 & n & G5).
  destruct (deepcopy_spec (w_mem w) o) as (x & o' & D & D1 & D2 & D3 & D4 & D5 & D6 & D7). rewrite D.
  specialize (D7 (good_in _ _ G4)). unfold np_copy, np_new.
  set (data := load (w_mem w ++ x) (pm_mask o')) in *.
  set (mk := mkAref (length (w_mem w ++ x)) (seq 0 (length data)) (a_shape (pm_mask o'))) in *.
  pose proof (made_new (w_mem w ++ x) (a_shape (pm_mask o')) data) as M. fold mk in M.
  assert (Ed : data = load (w_mem w) (pm_mask o)) by apply D7.
  assert (Gm : good ((w_mem w ++ x) ++ [data]) mk).
  { eapply made_good; [exact M|]. cbn [fst snd]. rewrite Ed, load_length. destruct D7 as (-> & _). apply G4. }
  unfold get_masked_model. cbn [im_mask contents im_ref im_refpol im_dummy im_basis im_interp].
  rewrite fill_load by auto. rewrite repeat_flag.
  assert (Ec : length (a_cells mk) = length (load (w_mem w) (pm_mask o))).
  { unfold mk. cbn [a_cells]. rewrite seq_length, Ed. auto. }
  rewrite Ec. replace (repeat (flag (bool_cell false)) (length (load (w_mem w) (pm_mask o))))
    with (map (fun _ : bool => false) (map flag (load (w_mem w) (pm_mask o))))
    by (rewrite const_map, map_length; auto).
  destruct (mask_indexes idx _) as [flags|e] eqn:FL; cbn [rbind]; auto.
  split; auto. unfold model_at, give_model. cbn [w_models w_mem]. rewrite last_nth. cbn [option_map]. f_equal.
  rewrite flags_stores. set (m3 := fill _ _ _).
  assert (K3 : keeps ((w_mem w ++ x) ++ [data]) m3) by (unfold m3; rewrite fill_stores; apply stores_keeps).
  assert (B3 : forall b, b < length (w_mem w ++ x) -> buffer (stores m3 mk (combine (seq 0 (length (map bool_cell flags))) (map bool_cell flags))) b = buffer (w_mem w ++ x) b).
  { intros b Hb. assert (N : b <> a_buf mk) by (unfold mk; cbn [a_buf]; lia).
    rewrite stores_other by auto. unfold m3. rewrite fill_stores, stores_other by auto. apply buffer_ext; auto. }
  assert (L3 : forall a, a_buf a < length (w_mem w ++ x) -> load (stores m3 mk (combine (seq 0 (length (map bool_cell flags))) (map bool_cell flags))) a = load (w_mem w ++ x) a).
  { intros a Ha. apply load_buffer, B3; auto. }
  assert (L4 : load (stores m3 mk (combine (seq 0 (length (map bool_cell flags))) (map bool_cell flags))) mk = map bool_cell flags).
  { apply stores_all; [eapply keeps_good; eauto|]. rewrite map_length. apply P_Interp3.mask_indexes_length in FL.
    rewrite FL, !map_length, Ec. auto. }
  set (m4 := stores _ _ _) in *.
  unfold contents. cbn [pm_ref pm_pol pm_dummy pm_basis pm_interp pm_mask]. rewrite D2, D3, D4. f_equal.
  - rewrite L3 by apply D5. f_equal. apply D5.
  - clear - D6 L3. revert D6. generalize (pm_basis o) as l. intros l D6. remember (map _ l) as q eqn:E. revert l E.
    induction D6 as [|a p r q M F IH]; intros [|b l] E; try discriminate; cbn [map]; auto. injection E as -> ->. f_equal.
    + rewrite L3 by apply M. f_equal. apply M.
    + apply IH; auto.
  - rewrite L4. apply map_flag_bool.
Qed.

Lemma predict_agrees spl w j o b : nth_error (w_models w) j = Some o ->
  match calc_polarizabilities spl (contents (w_mem w) o) b with
  | Ok ms => outcome spl w (Predict j b) = Ok tt /\
             array_at (after spl w (Predict j b)) (length (w_held w)) = Some ([length ms; 3; 3], flat_map matrix_data ms)
  | Err e => outcome spl w (Predict j b) = Err e
  end.
Proof.
  intros H. unfold outcome, after. cbn [perform]. rewrite (model_of _ _ _ H). cbn [rbind].
  destruct (calc_polarizabilities _ _ _) as [ms|e]; cbn [rbind]; auto. split; auto.
  unfold np_new, give, array_at. cbn [w_held w_mem]. rewrite last_nth. cbn [option_map]. rewrite load_new. auto.
Qed.
Lemma copy_agrees spl w j o : nth_error (w_models w) j = Some o ->
  array_at (after spl w (GetMask j)) (length (w_held w)) = Some (a_shape (pm_mask o), load (w_mem w) (pm_mask o)) /\
  array_at (after spl w (GetPolarizability j)) (length (w_held w)) = Some (a_shape (pm_pol o), load (w_mem w) (pm_pol o)).
Proof.
  intros H. unfold after. cbn [perform]. rewrite (model_of _ _ _ H). cbn [rbind].
  unfold np_copy, np_new, give, array_at. cbn [w_held w_mem]. rewrite !last_nth. cbn [option_map]. rewrite !load_new. auto.
Qed.

Lemma f_C87_calls spl w j v art : reached spl w -> model_at w j = Some v -> class_at w j = Some art ->
  (forall a, let '((v', _), r) := run_adding art a v in
     outcome spl w (Add j a) = r /\ model_at (after spl w (Add j a)) j = Some v') /\
  (forall i sh x, array_at w i = Some (sh, x) ->
     let '((v', _), r) := set_mask sh (map flag x) v in
     outcome spl w (SetMask j i) = r /\ model_at (after spl w (SetMask j i)) j = Some v') /\
  (outcome spl w (Unmask j) = Ok tt /\
   mask_at (after spl w (Unmask j)) j = Some (map (fun _ => false) (im_mask v))) /\
  (forall idx, match get_masked_model v idx with
     | Ok v' => outcome spl w (GetMasked j idx) = Ok tt /\
                model_at (after spl w (GetMasked j idx)) (length (w_models w)) = Some v'
     | Err e => outcome spl w (GetMasked j idx) = Err e
     end) /\
  (forall b, match calc_polarizabilities spl v b with
     | Ok ms => outcome spl w (Predict j b) = Ok tt /\
                array_at (after spl w (Predict j b)) (length (w_held w)) = Some ([length ms; 3; 3], flat_map matrix_data ms)
     | Err e => outcome spl w (Predict j b) = Err e
     end) /\
  (exists x, array_at (after spl w (GetMask j)) (length (w_held w)) = Some ([length (im_mask v)], x) /\
             map flag x = im_mask v) /\
  (exists x, array_at (after spl w (GetPolarizability j)) (length (w_held w)) = Some ([3; 3], x) /\
             matrix_of x = im_refpol v).
Proof.
  intros Rw M C. apply reached_sound in Rw. apply model_at_inv in M as (o & H & ->).
  unfold class_at in C. rewrite H in C. injection C as <-.
  destruct (copy_agrees spl w j o H) as [C1 C2].
  assert (Go : good_model (w_mem w) o) by (destruct Rw; eapply nth_good; eauto).
  split; [intros a; apply add_agrees; auto|].
  split. { intros i sh x A. apply array_at_inv in A as (a & A & -> & ->). apply set_mask_agrees; auto. }
  split; [apply unmask_agrees; auto|]. split; [intros idx; apply get_masked_agrees; auto|].
  split; [intros b; apply predict_agrees; auto|]. split.
  - eexists. rewrite C1, (mask_shape w j o) by auto. split; [reflexivity|]. auto.
  - eexists. rewrite C2. destruct Go as (_ & -> & _). split; [reflexivity|]. auto.
Qed.
