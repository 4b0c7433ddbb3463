(** Time steps that are not positive. *)
From Coq Require Import String Ascii ZArith NArith QArith Qreals Reals Bool Arith List Lia Lra.
From Verif Require Import Base LinAlg Constants M_Validate M_StructUtils M_Text M_Poscar M_Outcar M_Vasprun
  S_Text S_Lattice S_Outcar S_Vasprun P_Text P_Poscar P_Outcar P_Outcar2 P_Outcar3 P_Vasprun.
Import ListNotations.
Local Open Scope nat_scope.

Lemma traj_of_le0 n fs dt : (dt <= 0)%R -> trajectory_of (array3 n fs) (Fin dt) = Err ValueError.
Proof.
  intros Hdt. unfold trajectory_of, array3. cbn [na_shape na_data]. change (verify_ndarray_shape _ _) with (Ok tt). cbn [rbind].
  unfold num_le0, Rleb. destruct (Rle_dec dt 0); [reflexivity|lra].
Qed.
Lemma f_C59_timestep E content f symbols r0 lt r1 dt A B r2 bs : file_lines content f ->
  species f symbols r0 -> symbols <> [] ->
  first_with (txt "time-step for ionic-motion") r0 lt r1 -> timestep_line E lt (Fin dt) -> (dt <= 0)%R ->
  lattice_block E r1 (matrix A) r2 -> mmul A B = mI ->
  blocks_in E (List.length symbols) r2 bs -> bs <> [] ->
  outcar_read_trajectory E content = Err ValueError.
Proof.
  intros Hf Hs Hne Ht Htl Hdt Hl HAB Hb Hbs. apply file_lines_open in Hf. unfold outcar_read_trajectory. rewrite <- Hf.
  apply symbols_ok in Hs. rewrite Hs. cbn [rbind]. rewrite (timestep_ok _ _ _ _ _ Ht Htl). cbn [rbind].
  apply lattice_ok in Hl. rewrite Hl. cbn [rbind].
  assert (Hn : 0 < List.length symbols) by (destruct symbols; [congruence|cbn; lia]).
  rewrite (blocks_loop_ok E _ _ B Hn (matrix_inv E A B HAB) _ r2 bs false (Nat.lt_succ_diag_r _) Hb). cbn [rbind].
  assert (Hk : keep false bs <> []) by (destruct bs as [|[ml vs] bs]; [congruence|cbn; discriminate]).
  assert (Hlen : Forall (fun vs => List.length vs = List.length symbols) (keep false bs)) by (eapply keep_length; exact Hb).
  remember (keep false bs) as steps. 
  replace (map (fun vs => array2 (rows_mul vs B)) steps) with (map array2 (map (fun vs => rows_mul vs B) steps)) by (rewrite map_map; reflexivity).
  pose proof (np_stack_array2 (List.length symbols) (map (fun vs => rows_mul vs B) steps)) as HN.
  destruct (map array2 (map (fun vs => rows_mul vs B) steps)) eqn:Hm; [destruct steps; [congruence|discriminate]|].
  rewrite HN.
  - cbn [rbind]. apply traj_of_le0. exact Hdt.
  - destruct steps; [congruence|discriminate].
  - apply Forall_forall. intros x Hx. apply in_map_iff in Hx. destruct Hx as (y & <- & Hy). rewrite Forall_forall in Hlen.
    unfold rows_mul. rewrite map_length. apply Hlen. exact Hy.
Qed.
Lemma f_C62_timestep E parse content root structs n fs dt : parse content = Tree root ->
  unnamed_structures root structs -> structs <> [] ->
  Forall2 (fun s vs => exists v, first_at s [tag "varray"] v /\ varray3 E v vs) structs fs ->
  Forall (fun vs => List.length vs = n) fs -> 0 < n ->
  timestep_at E root (Fin dt) -> (dt <= 0)%R ->
  vasprun_read_trajectory E parse content = Err ValueError.
Proof.
  intros Hr Hs Hne HF Hl Hn Ht Hdt.
  unfold vasprun_read_trajectory. apply root_ok in Hr. rewrite Hr. cbn [rbind].
  rewrite <- (structures_unique _ _ _ Hs (structures_ok root)).
  assert (HM : mapM (fun s => let* v := or_missing "structure varray not found" (xfind s [tag "varray"]) in parse_rows E v) structs = Ok (map array2 fs)).
  { apply mapM_Ok. clear -HF Hl Hn. induction HF as [|s vs structs fs (v & Hv & H3) _ IH]; [constructor|].
    inversion Hl as [|? ? Hlv Hl']; subst. cbn [map]. constructor; [|apply IH; assumption]. apply at_path_ok. exists v. split; [exact Hv|].
    apply varray3_array; [intros ->; cbn in Hn; lia|exact H3]. }
  rewrite HM. cbn [rbind]. apply timestep_ok' in Ht.
  assert (Hf : fs <> []) by (intros ->; inversion HF; congruence).
  pose proof (np_stack_array2 n fs Hf Hl) as HN. destruct (map array2 fs) eqn:Hm; [destruct fs; [congruence|discriminate]|].
  rewrite Ht. cbn [rbind]. rewrite HN. cbn [rbind]. apply traj_of_le0. exact Hdt.
Qed.
