(** One crystal in two orientations, every call and every prediction: C95 *)
From Coq Require Import String ZArith Reals Lra Lia Bool Arith List.
From Verif Require Import Base LinAlg M_Validate M_StructUtils M_Symmetry M_Reference M_Interp M_Art M_Shared
  S_Vec S_Images S_Order S_Atoms S_Turned P_StructUtils P_Interp P_Interp3 P_Images P_Images2 P_Workflow P_Atoms P_Turned.
Import ListNotations.
Local Open Scope R_scope.

Section Turn.
Context (Q : M3) (tm : M3 -> M3) (HQ : isometry Q) (tm_m0 : tm m0 = m0) (tm_madd : forall a b, tm (madd a b) = madd (tm a) (tm b)) (tm_mscale : forall k a, tm (mscale k a) = mscale k (tm a)).
Notation T := (T Q tm).
Notation lifted := (lifted Q tm).
Notation fine s := (Forall (commutes tm) (rs_ops (im_ref s))).

Lemma data_shape p p' dims : mapped_data tm p p' -> verify_ndarray_shape (ra_shape p') dims = verify_ndarray_shape (ra_shape p) dims.
Proof. intros [(qs & -> & ->)|(E & _)]; [cbn [mats_arr ra_shape]; rewrite map_length; reflexivity|now rewrite E]. Qed.
Lemma data_mats p p' k : mapped_data tm p p' -> verify_ndarray_shape (ra_shape p) [Some k; Some 3%nat; Some 3%nat] = Ok tt -> mats_of (ra_data p') = map tm (mats_of (ra_data p)).
Proof.
  intros [(qs & -> & ->)|(E & N)] V.
  - cbn [mats_arr ra_data]. rewrite !mats_of_entries. reflexivity.
  - exfalso. apply verify_ndarray_shape_spec in V. inversion V as [|? ? ? ? V1 V2]; subst. inversion V2 as [|? ? ? ? V3 V4]; subst. inversion V4 as [|? ? ? ? V5 V6]; subst. inversion V6; subst.
    cbv beta iota in *. subst. eapply N. symmetry. eassumption.
Qed.
Lemma add_dof_turn cart amps p p' order inc s : fine s -> mapped_data tm p p' ->
  add_dof (tarr Q cart) amps p' order inc (T s) = lifted (fun x => x) (add_dof cart amps p order inc s).
Proof.
  intros HC HD. unfold add_dof. rewrite !bind_get. cbn [P_Turned.T im_ref im_dummy].
  apply (bind_turn Q tm (fun x => x)). { unfold lift. rewrite (frac_arr_turn Q HQ). unfold P_Turned.lifted. destruct (get_frac_displacement_arr _ _); reflexivity. }
  intros d s2 w2 E2. injection E2 as <- _ _. clear w2.
  apply (bind_turn Q tm (fun x => x)). { unfold lift, P_Turned.lifted. destruct (verify_ndarray_shape _ _); reflexivity. }
  intros u s2 w2 E2. injection E2 as <- _ _. clear u w2.
  set (pols := if im_dummy s then mats_arr (repeat m0 (List.length (ra_data amps))) else p).
  set (pols' := if im_dummy s then mats_arr (repeat m0 (List.length (ra_data amps))) else p').
  assert (HD' : mapped_data tm pols pols').
  { unfold pols, pols'. destruct (im_dummy s); [|exact HD]. left. exists (repeat m0 (List.length (ra_data amps))). split; [reflexivity|]. f_equal.
    induction (List.length (ra_data amps)) as [|k IH]; [reflexivity|]. cbn [repeat map]. rewrite <- IH, tm_m0. reflexivity. }
  apply (bind_turn Q tm (fun x => x)). { unfold lift. rewrite (data_shape _ _ _ HD'). unfold P_Turned.lifted. destruct (verify_ndarray_shape _ _); reflexivity. }
  intros u s2 w2 E1. injection E1 as <- _ E1. destruct u. clear w2.
  apply (bind_turn Q tm (map (tdof Q tm))).
  { unfold lift. rewrite (data_mats _ _ _ HD' E1), (get_dof_turn Q tm HQ tm_m0 tm_madd tm_mscale) by exact HC. reflexivity. }
  intros dofs s1 w' E2. injection E2 as <- _ _. apply (construct_turn Q tm).
Qed.

Lemma read_one_turn s x y : mapped_read tm x y -> read_one (T s) y = rmap (fun z => (fst z, tm (snd z))) (read_one s x).
Proof.
  destruct x as [[p q]|e], y as [[p' q']|e']; cbn [mapped_read]; try contradiction; [|intros ->; reflexivity]. intros (-> & ->). unfold read_one. cbn [rbind fst snd P_Turned.T im_ref im_dummy tref rs_positions].
  destruct (calc_displacement _ _) as [d|e]; [|destruct (is_value_error e); reflexivity]. cbn [rmap rbind fst snd]. destruct (im_dummy s); [|reflexivity]. now rewrite tm_m0.
Qed.
Lemma reads_turn s l l' : Forall2 (mapped_read tm) l l' -> mapM (read_one (T s)) l' = rmap (map (fun z => (fst z, tm (snd z)))) (mapM (read_one s) l).
Proof.
  induction 1 as [|x y l l' H HF IH]; [reflexivity|]. cbn [mapM]. rewrite (read_one_turn s x y H). destruct (read_one s x); [|reflexivity]. cbn [rmap rbind]. rewrite IH. destruct (mapM _ l); reflexivity.
Qed.
Lemma amplitude_turn b d : get_amplitude (trows Q b) (trows Q d) = get_amplitude b d.
Proof. unfold get_amplitude. apply (ldot_turn Q HQ). Qed.
Lemma amplitudes_turn s ds : amplitudes_of (T s) ds = amplitudes_of s ds.
Proof.
  unfold amplitudes_of. destruct ds as [|d0 ds]; [reflexivity|]. destruct (is_collinear_with_all _ _); [|reflexivity]. cbn [rbind]. destruct (negb _); [reflexivity|].
  cbn [P_Turned.T im_ref]. rewrite cart_turn. change (Fin (trows Q ?x)) with (tarr Q (Fin x)). rewrite (over_norm_turn Q HQ). destruct (over_norm 1 _) as [b|k]; [|reflexivity]. cbn [tarr].
  do 2 f_equal. apply map_ext. intros d. rewrite cart_turn. apply amplitude_turn.
Qed.
Lemma read_dof_turn s l l' : Forall2 (mapped_read tm) l l' -> read_dof (T s) l' = rmap (fun x => (fst x, map tm (snd x))) (read_dof s l).
Proof.
  intros H. unfold read_dof. rewrite (reads_turn s l l' H). destruct (mapM _ l) as [dps|]; [|reflexivity]. cbn [rmap rbind]. rewrite map_map. cbn [fst]. rewrite amplitudes_turn.
  destruct (amplitudes_of s _); [|reflexivity]. cbn [rmap rbind fst snd]. rewrite !map_map. reflexivity.
Qed.
Lemma mats_turned qs : mapped_data tm (mats_arr qs) (mats_arr (map tm qs)).
Proof. left. exists qs. auto. Qed.
Lemma files_turn l l' order s : fine s -> Forall2 (mapped_read tm) l l' ->
  add_dof_from_files l' order (T s) = lifted (fun x => x) (add_dof_from_files l order s).
Proof.
  intros HC H. unfold add_dof_from_files. rewrite !bind_get. apply (bind_turn Q tm (fun x : list V3 * list R * list M3 => (fst x, map tm (snd x)))).
  { unfold lift. rewrite (read_dof_turn s l l' H). reflexivity. }
  intros [[d am] po] s1 w E. injection E as <- _ _. cbn [fst snd P_Turned.T im_ref]. rewrite cart_turn. apply (add_dof_turn (Fin _)); [exact HC|apply mats_turned].
Qed.
Lemma disp_amp_turn s ps : displacement_amplitudes (T s) ps = displacement_amplitudes s ps.
Proof.
  unfold displacement_amplitudes. cbn [P_Turned.T im_ref tref rs_positions]. destruct (mapM _ ps) as [ds|]; [|reflexivity]. cbn [rbind]. apply (amplitudes_turn s).
Qed.
Lemma pymatgen_turn ps p p' order s : fine s -> mapped_data tm p p' ->
  add_dof_from_pymatgen ps p' order (T s) = lifted (fun x => x) (add_dof_from_pymatgen ps p order s).
Proof.
  intros HC H. unfold add_dof_from_pymatgen. rewrite !bind_get. apply (bind_turn Q tm (fun x => x)).
  { unfold lift. rewrite disp_amp_turn. unfold P_Turned.lifted. destruct (displacement_amplitudes s ps); reflexivity. }
  intros [d am] s1 w E. injection E as <- _ _. cbn [fst snd P_Turned.T im_ref]. rewrite cart_turn. apply (add_dof_turn (Fin _)); assumption.
Qed.
Lemma art_turn i d d' amps p p' s : fine s -> turned_direction Q d d' -> mapped_data tm p p' ->
  add_art i d' amps p' (T s) = lifted (fun x => x) (add_art i d amps p s).
Proof.
  intros HC Hd HD. unfold add_art. rewrite !bind_get. cbn [P_Turned.T im_ref im_dummy].
  apply (bind_turn Q tm (fun x => x)). { unfold lift. rewrite (frac_dir_turn Q HQ _ _ _ Hd). unfold P_Turned.lifted. destruct (get_frac_direction _ _); reflexivity. }
  intros f s2 w2 E2. injection E2 as <- _ _. clear w2.
  apply (bind_turn Q tm (fun x => x)). { unfold lift, P_Turned.lifted. destruct (match ra_shape amps with [1%nat] | [2%nat] => Ok tt | _ => Err ValueError end); reflexivity. }
  intros u s2 w2 E2. injection E2 as <- _ _. clear u w2.
  set (pols := if im_dummy s then mats_arr (repeat m0 (List.length (ra_data amps))) else p).
  set (pols' := if im_dummy s then mats_arr (repeat m0 (List.length (ra_data amps))) else p').
  assert (HD' : mapped_data tm pols pols').
  { unfold pols, pols'. destruct (im_dummy s); [|exact HD]. left. exists (repeat m0 (List.length (ra_data amps))). split; [reflexivity|]. f_equal.
    induction (List.length (ra_data amps)) as [|k IH]; [reflexivity|]. cbn [repeat map]. rewrite <- IH, tm_m0. reflexivity. }
  apply (bind_turn Q tm (fun x => x)). { unfold lift. rewrite (data_shape _ _ _ HD'). unfold P_Turned.lifted. destruct (verify_ndarray_shape _ _); reflexivity. }
  intros u s2 w2 E2. injection E2 as <- _ _. clear u w2. cbn [tref rs_positions]. destruct (py_index _ i) as [k|]; [|reflexivity].
  change (art_displacement (tref Q (im_ref s)) k f) with (art_displacement (im_ref s) k f). rewrite cart_arr_turn. apply add_dof_turn; assumption.
Qed.
Lemma one_atom_turn d0 amps pols s : fine s -> add_one_atom d0 amps (map tm pols) (T s) = lifted (fun x => x) (add_one_atom d0 amps pols s).
Proof.
  intros HC. unfold add_one_atom. rewrite !bind_get. apply (bind_turn Q tm (fun x => x)). { unfold lift, P_Turned.lifted. destruct (argmax _); reflexivity. }
  intros k s2 w2 E. injection E as <- _ _. clear w2. destruct (negb _); [reflexivity|]. apply (bind_turn Q tm (map (tdof Q tm))).
  { unfold lift. rewrite (get_dof_turn Q tm HQ tm_m0 tm_madd tm_mscale) by exact HC. reflexivity. }
  intros dofs s1 w' E. injection E as <- _ _. destruct dofs as [|x dofs]; [reflexivity|]. cbn [map]. unfold tdof at 1. cbn [snd]. rewrite map_length. destruct (negb _); [reflexivity|].
  apply (construct_turn Q tm (x :: dofs)).
Qed.
Lemma art_files_turn l l' s : fine s -> Forall2 (mapped_read tm) l l' -> add_art_from_files l' (T s) = lifted (fun x => x) (add_art_from_files l s).
Proof.
  intros HC H. unfold add_art_from_files. rewrite !bind_get. apply (bind_turn Q tm (fun x : list V3 * list R * list M3 => (fst x, map tm (snd x)))).
  { unfold lift. rewrite (read_dof_turn s l l' H). reflexivity. }
  intros [[d am] po] s1 w E. injection E as <- _ _. cbn [fst snd]. now apply one_atom_turn.
Qed.
Lemma art_pymatgen_turn ps pols s : fine s -> add_art_from_pymatgen ps (map tm pols) (T s) = lifted (fun x => x) (add_art_from_pymatgen ps pols s).
Proof.
  intros HC. unfold add_art_from_pymatgen. rewrite !bind_get. apply (bind_turn Q tm (fun x => x)).
  { unfold lift. rewrite disp_amp_turn. unfold P_Turned.lifted. destruct (displacement_amplitudes s ps); reflexivity. }
  intros [d am] s1 w E. injection E as <- _ _. cbn [fst snd]. now apply one_atom_turn.
Qed.
Lemma call_turn art a a' s : fine s -> mapped_call Q tm a a' -> run_adding art a' (T s) = lifted (fun x => x) (run_adding art a s).
Proof.
  intros HC H. destruct a as [c x p k i|rds k|ps p k|i d x p|rds|ps p], a' as [c' x' p' k' i'|rds' k'|ps' p' k'|i' d' x' p'|rds'|ps' p']; cbn [mapped_call] in H; try contradiction; cbn [run_adding run_op].
  - destruct H as (-> & -> & H & -> & ->). destruct art; [reflexivity|]. apply (add_dof_turn (Fin c)); assumption.
  - destruct H as (H & ->). destruct art; [reflexivity|]. now apply files_turn.
  - destruct H as (-> & H & ->). destruct art; [reflexivity|]. now apply pymatgen_turn.
  - destruct H as (-> & H & -> & HD). destruct art; [|reflexivity]. now apply art_turn.
  - destruct art; [|reflexivity]. now apply art_files_turn.
  - destruct H as (-> & ->). destruct art; [|reflexivity]. now apply art_pymatgen_turn.
Qed.
End Turn.
