(** Every call and every prediction: the order of the atoms does not matter (C93) *)
From Coq Require Import String ZArith Reals Bool Arith List Permutation Lia Lra.
From Verif Require Import Base LinAlg M_Validate M_StructUtils M_Symmetry M_Reference M_Interp M_Art M_Shared S_Vec S_Order P_Interp P_Interp3 P_Response2 P_Interp5 P_Images P_Order P_Order3
  S_Relabel P_Relabel P_Relabel2 P_Relabel3 S_Atoms P_Atoms P_Atoms2 P_Atoms3.
Import ListNotations.
Local Open Scope R_scope.

Section Order.
Context (n : nat) (u : nat -> nat) (HU : reordering n u) (r r' : refstruct) (HRR : RR n u r r').
Notation like := (like n u).
Notation RI := (RI n u r r').
Notation RM := (RM n u r r').

Lemma repeat_like (x : V3) : like (repeat x n) (repeat x n).
Proof.
  apply like_make; try apply repeat_length; [exact HU|]. intros k y E. pose proof (some_lt _ _ _ E) as Hk. rewrite repeat_length in Hk. apply nth_error_In, repeat_spec in E. subst y.
  destruct (lt_some (repeat x n) (u k)) as [y Ey]; [rewrite repeat_length; apply HU, Hk|]. rewrite Ey. apply nth_error_In, repeat_spec in Ey. congruence.
Qed.
Lemma set_like l l' k (x : V3) : like l l' -> (k < n)%nat -> like (set_nth k x l) (set_nth (u k) x l').
Proof.
  intros H Hk. destruct (like_len _ _ _ _ H) as [L L']. apply like_make; [exact HU|rewrite set_nth_length; exact L|rewrite set_nth_length; exact L'|].
  intros j y E. pose proof (some_lt _ _ _ E) as Hj. rewrite set_nth_length, L in Hj. rewrite set_nth_nth_error in E |- *. destruct HU as (U1 & U2). pose proof (U1 _ Hk). pose proof (U1 _ Hj).
  rewrite L in E. rewrite L'.
  destruct (Nat.eqb j k) eqn:Q.
  - apply Nat.eqb_eq in Q. subst j. rewrite Nat.eqb_refl. destruct (Nat.ltb_spec k n), (Nat.ltb_spec (u k) n); try lia. cbn [andb] in *. exact E.
  - apply Nat.eqb_neq in Q. destruct (Nat.eqb_spec (u j) (u k)) as [C|C]; [apply U2 in C; try assumption; congruence|]. cbn [andb] in *. destruct H as (_ & (_ & _ & M)). apply M, E.
Qed.
Lemma cart_frac d a : apply_pbc_displacement d = d -> get_frac_displacement_arr r (Fin (get_cart_displacement r d)) = Ok a -> a = Fin d.
Proof.
  intros H E. cbn [get_frac_displacement_arr] in E. destruct (minv (rs_lattice r)) as [li|e] eqn:M.
  - rewrite (frac_of_cart r li d M H) in E. cbn in E. congruence.
  - unfold get_frac_displacement in E. rewrite M in E. discriminate.
Qed.

Lemma RM_files rds rds' order : Forall2 (same_read n u) rds rds' -> unambiguous r (DofFiles rds order) ->
  RM eq (add_dof_from_files rds order) (add_dof_from_files rds' order).
Proof.
  intros HF HA. unfold add_dof_from_files. apply (RM_bind n u r r' RI); [apply RM_get|]. intros s s' HI. pose proof HI as (A1 & A2 & _).
  eapply RM_lift_bind; [apply (read_dof_like n u HU r r' HRR); eassumption|]. intros [[d am] po] [[d' am'] po'] K _ (H1 & H2 & H3). cbn [fst snd] in *. subst am' po'.
  apply read_first in K as (p & y & rest & -> & K). rewrite A1 in K. rewrite A1, A2. pose proof (calc_reduced _ _ _ K) as Hred.
  apply RM_add_dof; try assumption; [apply cart_like; assumption|cbn [arr_len]; unfold get_cart_displacement, rows_mul, apply_pbc_displacement; rewrite !map_length; exact (proj1 H1)|].
  intros a gs Ea Hg. rewrite (cart_frac d a Hred Ea) in Hg. eapply parent_steady; [|exact Hred|exact Hg]. apply HA. cbn [starts_from]. exact K.
Qed.
Lemma RM_pymatgen ps ps' pols order : Forall2 (same_rows n u) ps ps' -> unambiguous r (DofPymatgen ps pols order) ->
  RM eq (add_dof_from_pymatgen ps pols order) (add_dof_from_pymatgen ps' pols order).
Proof.
  intros HF HA. unfold add_dof_from_pymatgen. apply (RM_bind n u r r' RI); [apply RM_get|]. intros s s' HI. pose proof HI as (A1 & A2 & _).
  eapply RM_lift_bind; [apply (pymatgen_like n u HU r r' HRR); eassumption|]. intros [d am] [d' am'] K _ (H1 & H2). cbn [fst snd] in *. subst am'.
  apply pymatgen_first in K as (p & rest & -> & K). rewrite A1 in K. rewrite A1, A2. cbn [fst] in K. pose proof (calc_reduced _ _ _ K) as Hred.
  apply RM_add_dof; try assumption; [apply cart_like; assumption|cbn [arr_len]; unfold get_cart_displacement, rows_mul, apply_pbc_displacement; rewrite !map_length; exact (proj1 H1)|].
  intros a gs Ea Hg. rewrite (cart_frac d a Hred Ea) in Hg. eapply parent_steady; [|exact Hred|exact Hg]. apply HA. cbn [starts_from]. exact K.
Qed.
Lemma mover_like d d' : like d d' -> one_mover d -> exists k, (k < n)%nat /\ argmax (map vnorm2 d) = Ok k /\ argmax (map vnorm2 d') = Ok (u k).
Proof.
  intros H (i & Hi & HM). destruct (like_len _ _ _ _ H) as [L L']. rewrite L in Hi, HM. exists i. split; [exact Hi|].
  assert (N : forall l j, nth j (map vnorm2 l) 0 = vnorm2 (nth j l v0)).
  { intros l j. replace 0 with (vnorm2 v0) by (vunf; ring). apply map_nth. }
  split; apply argmax_is; (split; [rewrite map_length; try rewrite L; try rewrite L'; try apply HU; exact Hi|]).
  - split; intros j; rewrite ?map_length; intros Hj; rewrite !N.
    + rewrite L in Hj. destruct (Nat.eq_dec j i) as [->|Ne]; [apply Rle_refl|]. left. apply HM; assumption.
    + apply HM; lia.
  - split; intros j; rewrite ?map_length; intros Hj; rewrite !N, (like_nth n u d d' v0 i H Hi).
    + rewrite L' in Hj. destruct (u_onto n u HU j Hj) as (k & Hk & <-). rewrite (like_nth n u d d' v0 k H Hk). destruct (Nat.eq_dec k i) as [->|Ne]; [apply Rle_refl|]. left. apply HM; assumption.
    + assert (Hj' : (j < n)%nat) by (destruct HU as (U1 & _); specialize (U1 _ Hi); lia). destruct (u_onto n u HU j Hj') as (k & Hk & <-). rewrite (like_nth n u d d' v0 k H Hk). apply HM; [exact Hk|]. intros ->. lia.
Qed.
Lemma RM_one_atom d d' amps pols : like d d' -> decisive r d -> one_mover d -> RM eq (add_one_atom d amps pols) (add_one_atom d' amps pols).
Proof.
  intros H HD HM. unfold add_one_atom. apply (RM_bind n u r r' RI); [apply RM_get|]. intros s s' (A1 & A2 & A3 & A4 & A5 & A6 & A7).
  destruct (mover_like _ _ H HM) as (k & Hk & -> & ->). eapply (RM_lift_bind n u r r' (fun a b => b = u a /\ (a < n)%nat)); [cbn; auto|]. intros j ? _ _ (-> & Hj).
  rewrite <- (forallb_like n u row_small _ _ (set_like _ _ j v0 H Hj)). destruct (negb _); [apply RM_raise|].
  apply (RM_lift_bind n u r r' (Forall2 (RD n u))).
  - apply (get_dof_like n u HU r r' HRR); try assumption; [exact (proj1 H)|]. intros gs Hg. eapply decisive_steady; eassumption.
  - intros dofs dofs' _ _ HF. pose proof HF as HF2. destruct HF2 as [|x x' l l' (_ & E) _]; [apply RM_raise|]. rewrite E. destruct (negb _); [apply RM_raise|]. apply RM_construct, HF.
Qed.
Lemma RM_art_files rds rds' : Forall2 (same_read n u) rds rds' -> unambiguous r (ArtFiles rds) -> RM eq (add_art_from_files rds) (add_art_from_files rds').
Proof.
  intros HF HA. unfold add_art_from_files. apply (RM_bind n u r r' RI); [apply RM_get|]. intros s s' HI. pose proof HI as (A1 & A2 & _).
  eapply RM_lift_bind; [apply (read_dof_like n u HU r r' HRR); eassumption|]. intros [[d am] po] [[d' am'] po'] K _ (H1 & H2 & H3). cbn [fst snd] in *. subst am' po'.
  apply read_first in K as (p & y & rest & -> & K). rewrite A1 in K. destruct (HA d) as (HD & HM); [exact K|]. apply RM_one_atom; assumption.
Qed.
Lemma RM_art_pymatgen ps ps' pols : Forall2 (same_rows n u) ps ps' -> unambiguous r (ArtPymatgen ps pols) -> RM eq (add_art_from_pymatgen ps pols) (add_art_from_pymatgen ps' pols).
Proof.
  intros HF HA. unfold add_art_from_pymatgen. apply (RM_bind n u r r' RI); [apply RM_get|]. intros s s' HI. pose proof HI as (A1 & A2 & _).
  eapply RM_lift_bind; [apply (pymatgen_like n u HU r r' HRR); eassumption|]. intros [d am] [d' am'] K _ (H1 & H2). cbn [fst snd] in *. subst am'.
  apply pymatgen_first in K as (p & rest & -> & K). rewrite A1 in K. cbn [fst] in K. destruct (HA d) as (HD & HM); [exact K|]. apply RM_one_atom; assumption.
Qed.
Lemma RM_art i i' dir amps pols : option_map u (py_index n i) = py_index n i' -> unambiguous r (Art i dir amps pols) ->
  RM eq (add_art i dir amps pols) (add_art i' dir amps pols).
Proof.
  intros HI HA. unfold add_art. apply (RM_bind n u r r' RI); [apply RM_get|]. intros s s' (A1 & A2 & A3 & A4 & A5 & A6 & A7). rewrite A1, A2, <- A4. cbv zeta.
  pose proof HRR as (EL & HP & _). destruct (like_len _ _ _ _ HP) as [L L'].
  apply (RM_lift_bind n u r r' eq). { unfold get_frac_direction. rewrite EL. apply RS_eq. reflexivity. } intros f ? Ef _ <-.
  apply (RM_lift_bind n u r r' eq); [apply RS_eq; reflexivity|]. intros _ _ _ _ _. apply (RM_lift_bind n u r r' eq); [apply RS_eq; reflexivity|]. intros _ _ _ _ _.
  rewrite L, L'. destruct (py_index n i) as [k|] eqn:Ek; cbn [option_map] in HI; rewrite <- HI; [|apply RM_raise].
  pose proof (py_index_lt _ _ _ Ek) as Hk.
  assert (RAK : RA n u (art_displacement r k f) (art_displacement r' (u k) f) /\ arr_len (art_displacement r k f) = n).
  { unfold art_displacement. rewrite L, L'. destruct (Reqb _ 0); cbn [RA arr_len]; [split; reflexivity|]. split; [apply set_like; [apply repeat_like|exact Hk]|]. rewrite set_nth_length. apply repeat_length. }
  destruct RAK as (RAK & LK).
  assert (Hred : apply_pbc_displacement (set_nth k f (repeat v0 n)) = set_nth k f (repeat v0 n)).
  { unfold get_frac_direction in Ef. destruct dir as [|x [|y [|z []]]]; try discriminate. destruct (minv _); [|discriminate]. cbn [rbind] in Ef. injection Ef as <-. apply wrapd_vec_reduced. }
  apply RM_add_dof; try assumption; [apply cart_arr_like; assumption| |].
  - destruct (art_displacement r k f); cbn [get_cart_displacement_arr arr_len] in *; [|exact LK]. unfold get_cart_displacement, rows_mul, apply_pbc_displacement. rewrite !map_length. exact LK.
  - intros a gs Ea Hg. destruct (minv (rs_lattice r)) as [li|e] eqn:M.
    + assert (P : over_norm 10 a = over_norm 10 (Fin (set_nth k f (repeat v0 n)))).
      { rewrite <- (art_parent r li k f n M L Hk Hred). unfold dof_parent. rewrite Ea. reflexivity. }
      rewrite P in Hg. eapply parent_steady; [|exact Hred|exact Hg]. apply HA. cbn [starts_from]. exists f, k. rewrite L. split; [exact Ef|]. split; [exact Ek|reflexivity].
    + destruct (get_cart_displacement_arr r (art_displacement r k f)); cbn [get_frac_displacement_arr] in Ea; unfold get_frac_displacement in Ea; rewrite M in Ea; discriminate.
Qed.

Lemma RM_call art a a' : same_call n u a a' -> unambiguous r a -> RM eq (run_adding art a) (run_adding art a').
Proof.
  intros H HA. destruct a as [c x p k i|rds k|ps p k|i d x p|rds|ps p], a' as [c' x' p' k' i'|rds' k'|ps' p' k'|i' d' x' p'|rds'|ps' p']; cbn [same_call] in H; try contradiction; cbn [run_adding run_op].
  - destruct H as (H & -> & -> & -> & ->). destruct art; [apply RM_raise|]. pose proof (same_like n u HU _ _ H) as HL.
    apply RM_add_dof; try assumption; [exact (proj1 HL)|]. intros a gs Ea Hg. cbn [get_frac_displacement_arr] in Ea. destruct (get_frac_displacement r c) as [d|] eqn:Ed; [|discriminate]. cbn in Ea. injection Ea as <-.
    eapply parent_steady; [|eapply frac_reduced, Ed|exact Hg]. apply HA. exact Ed.
  - destruct H as (H & ->). destruct art; [apply RM_raise|]. apply RM_files; assumption.
  - destruct H as (H & -> & ->). destruct art; [apply RM_raise|]. apply RM_pymatgen; assumption.
  - destruct H as (H & -> & -> & ->). destruct art; [|apply RM_raise]. apply RM_art; assumption.
  - destruct art; [|apply RM_raise]. apply RM_art_files; assumption.
  - destruct H as (H & ->). destruct art; [|apply RM_raise]. apply RM_art_pymatgen; assumption.
Qed.
Lemma run_like art calls calls' : Forall2 (same_call n u) calls calls' -> Forall (unambiguous r) calls -> forall m m', RI m m' ->
  fst (run_all art calls m) = fst (run_all art calls' m') /\ RI (snd (run_all art calls m)) (snd (run_all art calls' m')).
Proof.
  induction 1 as [|a a' cs cs' H HF IH]; intros HA m m' HI; [split; [reflexivity|exact HI]|]. inversion HA as [|? ? HA1 HA2]; subst.
  pose proof (RM_call art a a' H HA1 m m' HI) as K. cbn [run_all]. destruct (run_adding art a m) as [[m1 w] x], (run_adding art a' m') as [[m1' w'] x']. cbn [fst snd] in K. destruct K as (K1 & K2 & K3). apply RS_eq in K3.
  specialize (IH HA2 m1 m1' K1). destruct (run_all art cs m1) as [os m2], (run_all art cs' m1') as [os' m2']. cbn [fst snd] in *. destruct IH as (I1 & I2). split; [congruence|exact I2].
Qed.

(** ** Predictions *)
Lemma bix_self i : (i < n)%nat -> bix n i = i.
Proof. intros H. unfold bix. destruct (Nat.eqb_spec n 1); [lia|reflexivity]. Qed.
Definition disp_rows (q : refstruct) (b : batch) (s : nat) : list V3 := map (fun i => vmul (bdisp (rs_positions q) b n 3 s i) (rs_lattice q)) (seq 0 n).
Lemma batch_rows q b ns : List.length (rs_positions q) = n -> b_shape b = [ns; n; 3%nat] ->
  batch_displacements q b = Ok ((n * 3)%nat, map (fun s => flatten_rows (disp_rows q b s)) (seq 0 ns)).
Proof. intros L E. unfold batch_displacements. rewrite E, L. unfold bdim at 1. rewrite Nat.eqb_refl. reflexivity. Qed.
Lemma disp_like b b' ns s : b_shape b = [ns; n; 3%nat] -> (forall s i c, (s < ns)%nat -> (i < n)%nat -> (c < 3)%nat -> b_at b' s (u i) c = b_at b s i c) -> (s < ns)%nat ->
  like (disp_rows r b s) (disp_rows r' b' s).
Proof.
  intros _ H Hs. unfold disp_rows. pose proof HRR as (EL & HP & _). destruct (like_len _ _ _ _ HP) as [L L'].
  apply like_make; [exact HU|rewrite map_length; apply seq_length|rewrite map_length; apply seq_length|]. intros k x E. pose proof (some_lt _ _ _ E) as Hk. rewrite map_length, seq_length in Hk.
  assert (Hu : (u k < n)%nat) by (apply HU, Hk).
  rewrite nth_error_map in E |- *. rewrite (nth_error_nth' _ 0%nat) in E by (rewrite seq_length; exact Hk). rewrite (nth_error_nth' _ 0%nat) by (rewrite seq_length; exact Hu). rewrite seq_nth in E by exact Hk. rewrite seq_nth by exact Hu.
  cbn [option_map Nat.add] in *. injection E as <-. f_equal. rewrite EL. f_equal. unfold bdisp. rewrite L, L', !bix_self by assumption. change (bix 3 0) with 0%nat. change (bix 3 1) with 1%nat. change (bix 3 2) with 2%nat.
  rewrite !H by (assumption || lia). rewrite (like_nth n u _ _ v0 k HP Hk). reflexivity.
Qed.
Lemma sum_like spl width rows rows' : Forall2 (fun x y => exists a b, x = flatten_rows a /\ y = flatten_rows b /\ like a b) rows rows' ->
  forall basis basis' interps mask acc, Forall2 like basis basis' ->
  sum_dofs spl width rows basis interps mask acc = sum_dofs spl width rows' basis' interps mask acc.
Proof.
  intros HR basis basis' interps mask acc HB. revert interps mask acc. induction HB as [|b b' bs bs' Hb HB IH]; intros [|sp is_] [|mk ms] acc; try reflexivity. cbn [sum_dofs].
  destruct (like_len _ _ _ _ Hb) as [L L']. rewrite !flat_len, L, L'. destruct (_ || _)%bool; [|reflexivity]. rewrite <- IH. f_equal. clear - HR Hb.
  revert acc. induction HR as [|x y xs ys (c & d & -> & -> & Hc) HF IH2]; intros [|a acc]; cbn [map2]; try reflexivity. rewrite !ldot_rows, (dot_like n u _ _ _ _ Hb Hc). f_equal. apply IH2.
Qed.
Lemma calc_same spl m m' b b' : RI m m' -> same_batch n u b b' -> calc_polarizabilities spl m b = calc_polarizabilities spl m' b'.
Proof.
  intros (A1 & A2 & A3 & A4 & A5 & A6 & A7) (ns & E & E' & H). unfold calc_polarizabilities. pose proof HRR as (EL & HP & _). destruct (like_len _ _ _ _ HP) as [L L'].
  rewrite A1, A2, (batch_rows r b ns L E), (batch_rows r' b' ns L' E'). cbn [rbind].
  assert (HF : Forall2 (fun x y => exists a b, x = flatten_rows a /\ y = flatten_rows b /\ like a b) (map (fun s => flatten_rows (disp_rows r b s)) (seq 0 ns)) (map (fun s => flatten_rows (disp_rows r' b' s)) (seq 0 ns))).
  { assert (T : Forall (fun s => (s < ns)%nat) (seq 0 ns)) by (apply Forall_forall; intros s Hs; apply in_seq in Hs; lia). induction T as [|s l Hs HT IH]; cbn [map]; constructor; [|exact IH]. do 2 eexists. split; [reflexivity|]. split; [reflexivity|]. eapply disp_like; eassumption. }
  rewrite <- A6, <- A7, <- A3, <- A4, <- (sum_like spl (n * 3) _ _ HF _ _ (im_interp m) (im_mask m) _ A5). rewrite !map_map. reflexivity.
Qed.
End Order.

Lemma reference_like numbers numbers' L pos pos' ops equiv equiv' r r' move : reordering (List.length pos) move -> reordered move pos pos' ->
  make_reference numbers L pos (Some (ops, equiv)) = Ok r -> make_reference numbers' L pos' (Some (ops, equiv')) = Ok r' -> RR (List.length pos) move r r'.
Proof.
  intros HU HP E E'. assert (HL : like (List.length pos) move pos pos') by (apply same_like; [exact HU|split; [reflexivity|exact HP]]).
  unfold make_reference in E, E'. repeat (destruct (verify_list_len _ _); [|discriminate]). cbn [rbind] in E, E'.
  repeat (destruct (verify_ndarray_shape _ _); [|discriminate]). cbn [rbind] in E, E'.
  assert (K : RS (Forall2 (RB (List.length pos) move)) (compute_permutation_matrices ops pos) (compute_permutation_matrices ops pos')).
  { unfold compute_permutation_matrices. apply (RS_mapM eq); [clear; induction ops; constructor; auto|]. intros x y _ <-. apply perm_like; assumption. }
  destruct (compute_permutation_matrices ops pos), (compute_permutation_matrices ops pos'); try discriminate. cbn [rbind RS] in *. injection E as <-. injection E' as <-.
  split; [reflexivity|]. split; [exact HL|]. split; [reflexivity|exact K].
Qed.

Lemma f_C93_order numbers numbers' L pos pos' ops equiv equiv' r r' move refpol dummy art calls calls' :
  reordering (List.length pos) move -> reordered move pos pos' ->
  make_reference numbers L pos (Some (ops, equiv)) = Ok r -> make_reference numbers' L pos' (Some (ops, equiv')) = Ok r' ->
  Forall2 (same_call (List.length pos) move) calls calls' -> Forall (unambiguous r) calls ->
  let run := run_all art calls (make_model r refpol dummy) in
  let run' := run_all art calls' (make_model r' refpol dummy) in
  fst run' = fst run /\
  Forall2 (same_rows (List.length pos) move) (im_basis (snd run)) (im_basis (snd run')) /\
  im_mask (snd run') = im_mask (snd run) /\
  forall spl b b', same_batch (List.length pos) move b b' ->
    calc_polarizabilities spl (snd run') b' = calc_polarizabilities spl (snd run) b.
Proof.
  intros HU HP E E' HC HA. pose proof (reference_like _ _ _ _ _ _ _ _ _ _ _ HU HP E E') as HRR. cbv zeta.
  destruct (run_like _ _ HU r r' HRR art calls calls' HC HA (make_model r refpol dummy) (make_model r' refpol dummy)) as (K1 & K2).
  { unfold RI, make_model; cbn. repeat split; constructor. }
  split; [symmetry; exact K1|]. pose proof K2 as (A1 & A2 & A3 & A4 & A5 & A6 & A7). split.
  { clear - A5. induction A5; constructor; [apply like_same|]; assumption. }
  split; [symmetry; exact A7|]. intros spl b b' Hb. symmetry. eapply calc_same; eassumption.
Qed.

Lemma f_C93_images numbers numbers' L pos pos' ops equiv equiv' r r' move d d' :
  reordering (List.length pos) move -> reordered move pos pos' ->
  make_reference numbers L pos (Some (ops, equiv)) = Ok r -> make_reference numbers' L pos' (Some (ops, equiv')) = Ok r' ->
  same_rows (List.length pos) move d d' ->
  match get_equivalent_displacements r (Fin d), get_equivalent_displacements r' (Fin d') with
  | Ok gs, Ok gs' => Forall2 (fun g g' => g_trans g' = g_trans g /\ Forall2 (fun a a' =>
      match a, a' with Fin l, Fin l' => same_rows (List.length pos) move l l' | Nan k, Nan k' => k' = k | _, _ => False end) (g_disp g) (g_disp g')) gs gs'
  | Err e, Err e' => e' = e
  | _, _ => False
  end.
Proof.
  intros HU HP E E' HD. pose proof (reference_like _ _ _ _ _ _ _ _ _ _ _ HU HP E E') as HRR.
  pose proof (groups_like _ _ HU r r' HRR (Fin d) (Fin d') (same_like _ _ HU _ _ HD) (proj1 HD)) as K.
  destruct (get_equivalent_displacements r (Fin d)) as [gs|e], (get_equivalent_displacements r' (Fin d')) as [gs'|e']; cbn [RS] in K; try contradiction; [|symmetry; exact K].
  induction K as [|g g' gs gs' (H1 & H2) HF IH]; constructor; [|exact IH]. split; [symmetry; exact H2|]. clear - H1. induction H1 as [|a a' l l' H HF IH]; constructor; [|exact IH].
  destruct a, a'; cbn in H |- *; try contradiction; [apply like_same, H|symmetry; exact H].
Qed.
