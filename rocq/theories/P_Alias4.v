(** The statements of C73 and C74 in their final form, and examples. *)
From Coq Require Import String ZArith Reals Bool Arith Lia Lra List.
From Verif Require Import Base LinAlg M_Validate M_StructUtils M_Interp M_Spectrum M_Reference M_Dynamics M_Alias S_Alias P_Alias P_Alias2 P_Alias3.
Import ListNotations.

Lemma g_sound_reachable k ops : sound (run k (mkState [] [] []) ops).
Proof. apply run_sound. split; constructor. Qed.

Lemma g_C73_measure_leaks k s i w t args n c e sh old :
  sound s -> nth_error (st_objs s) i = Some (OPhononSpectrum w t) -> ordinary (st_mem s) w ->
  perform k s (Measure i args) = Ok e ->
  answer k s (Property i PhononWavenumbers) = Ok [SArr sh old] -> n < length old ->
  answer k (run k s [Measure i args; Write (length (st_held s)) n c]) (Property i PhononWavenumbers)
  = Ok [SArr sh (set_nth n c old)].
Proof.
  intros Hs Ho Hw He Hr Hn. destruct e as [[m' hs] os].
  destruct hs as [|h hs].
  { exfalso. unfold perform, with_obj in He. rewrite Ho in He. cbn [measure] in He. unfold gives in He.
    unbind. cbn in H. unbind. cbn in *. discriminate. }
  eapply f_C73_measure_leaks; eauto. rewrite Ho. intros o [= <-]; eauto.
Qed.

Lemma g_C73_indexing_leaks k s i t dt q z n c e sh old :
  sound s -> nth_error (st_objs s) i = Some (OTrajectory t dt) -> ordinary (st_mem s) t ->
  perform k s (GetItem i z) = Ok e ->
  answer k s (Property i PositionsTs) = Ok [SArr sh old] ->
  py_index (hd 0 sh) z = Some q ->
  n < prod_list (tl sh) -> q * prod_list (tl sh) + n < length old ->
  answer k (run k s [GetItem i z; Write (length (st_held s)) n c]) (Property i PositionsTs)
  = Ok [SArr sh (set_nth (q * prod_list (tl sh) + n) c old)].
Proof.
  intros Hs Ho Hw He Hr Hz Hn Hlt. destruct e as [[m' hs] os].
  destruct hs as [|h hs].
  { exfalso. unfold perform, with_obj in He. rewrite Ho in He. cbn [get_item] in He. unfold gives1 in He.
    unbind. discriminate. }
  eapply f_C73_indexing_leaks; eauto. rewrite Ho. intros o [= <-]; eauto.
Qed.

Lemma g_C73_polarizability_ts_leaks k s i t dt n c sh old :
  sound s -> nth_error (st_objs s) i = Some (OMDSpectrum t dt) -> ordinary (st_mem s) t ->
  answer k s (Property i PolarizabilityTs) = Ok [SArr sh old] -> n < length old ->
  answer k (run k s [Property i PolarizabilityTs; Write (length (st_held s)) n c]) (Property i PolarizabilityTs)
  = Ok [SArr sh (set_nth n c old)].
Proof.
  intros Hs Ho Hw Hr Hn.
  destruct (perform k s (Property i PolarizabilityTs)) as [[[m' hs] os]|] eqn:He.
  2:{ unfold answer in Hr. rewrite He in Hr. discriminate. }
  destruct hs as [|h hs].
  { exfalso. unfold perform, with_obj in He. rewrite Ho in He. cbn in He. discriminate. }
  eapply f_C73_polarizability_ts_leaks; eauto. rewrite Ho. intros o [= <-]; eauto.
Qed.

Lemma g_C73_phonons_leak k s i r w d args n c sh old e1 e2 :
  sound s -> nth_error (st_objs s) i = Some (OPhonons r w d) -> ordinary (st_mem s) w ->
  let j := length (st_objs s) in
  perform k s (RamanSpectrum i) = Ok e1 ->
  perform k (step k s (RamanSpectrum i)) (Measure j args) = Ok e2 ->
  answer k s (Property i Wavenumbers) = Ok [SArr sh old] -> n < length old ->
  answer k (run k s [RamanSpectrum i; Measure j args; Write (length (st_held s)) n c]) (Property i Wavenumbers)
  = Ok [SArr sh (set_nth n c old)].
Proof.
  intros Hs Ho Hw j H1 H2 Hr Hn.
  eapply f_C73_phonons_leak; eauto. rewrite Ho. intros o [= <-]. exists r, w, d; auto.
Qed.

Lemma g_C74_write_seen k s j a org n c :
  nth_error (st_held s) j = Some (HArr a, org) -> ordinary (st_mem s) a -> n < length (load (st_mem s) a) ->
  show_val (st_mem (step k s (Write j n c))) (HArr a) = SArr (a_shape a) (set_nth n c (load (st_mem s) a)).
Proof.
  intros Hj Ha Hn. erewrite step_write by exact Hj. cbn [st_mem show_val]. f_equal.
  destruct (nth_error_cells _ _ _ Hn) as [q Hq]. apply (load_store _ a a n n q); auto.
Qed.

(** ** An example world *)
Definition num (z : Z) : cell := Num (Some (IZR z)).
Definition ex_kernel : kernel := mkKernel
  (fun _ _ _ => Some (1, map num [1;0;0;0;1;0;0;0;1]%Z, map num [0;0;0]%Z, [0]))
  (fun _ _ _ => Ok [[[true]]])
  (fun _ _ _ _ d => Ok [(d, 0)])
  (fun _ d => Ok ([2; 3; 3], map num [1;2;3;4;5;6;7;8;9;1;2;3;4;5;6;7;8;9]%Z))
  (fun _ => Ok ([2; 3; 3], map num [1;2;3;4;5;6;7;8;9;1;2;3;4;5;6;7;8;9]%Z))
  (fun w _ _ => Ok w)
  (fun _ _ _ => Ok (map num [1]%Z, map num [2]%Z)).

(** One atom, two phonons, two frames: arrays 0-2, 4 and 5, list 3; objects 0 phonons,
    1 structure, 2 trajectory, 3 phonon spectrum, 4 MD spectrum, made from these by
    MakePhonons 0 1 2, MakeStruct 3 4 0, MakeTrajectory 5 1, RamanSpectrum 0 and
    RamanSpectrum 2 *)
Definition ex_tensors : list cell := map num [1;2;3;4;5;6;7;8;9;1;2;3;4;5;6;7;8;9]%Z.
Definition ex_world : state := mkState
  [ map num [0;0;0]%Z; map num [100;200]%Z; map num [1;0;0;0;1;0]%Z; [Int 22];
    map num [4;0;0;0;4;0;0;0;4]%Z; map num [5;0;0;0;1;0]%Z;
    map num [1;0;0;0;1;0;0;0;1]%Z; map num [0;0;0]%Z; map num [0;0;0;0;0;0]%Z;
    ex_tensors; ex_tensors ]
  [ (HArr (mkAref 0 (seq 0 3) [1;3]), Made); (HArr (mkAref 1 (seq 0 2) [2]), Made);
    (HArr (mkAref 2 (seq 0 6) [2;1;3]), Made); (HLst 3, Made);
    (HArr (mkAref 4 (seq 0 9) [3;3]), Made); (HArr (mkAref 5 (seq 0 6) [2;1;3]), Made) ]
  [ OPhonons (mkAref 0 (seq 0 3) [1;3]) (mkAref 1 (seq 0 2) [2]) (mkAref 2 (seq 0 6) [2;1;3]);
    OStruct 3 (mkAref 4 (seq 0 9) [3;3]) (mkAref 0 (seq 0 3) [1;3]) (mkAref 6 (seq 0 9) [1;3;3])
      (mkAref 7 (seq 0 3) [1;3]) [0] [[[true]]];
    OTrajectory (mkAref 8 (seq 0 6) [2;1;3]) 1;
    OPhononSpectrum (mkAref 1 (seq 0 2) [2]) (mkAref 9 (seq 0 18) [2;3;3]);
    OMDSpectrum (mkAref 10 (seq 0 18) [2;3;3]) 1 ].

Lemma ex_sound : sound ex_world.
Proof. split; cbn -[seq]; repeat constructor; unfold aref_in; cbn; lia. Qed.
Lemma ex_ordinary b n sh : nth b [3; 2; 6; 1; 9; 6; 9; 3; 6; 18; 18] 0 = n -> b < 11 ->
  ordinary (st_mem ex_world) (mkAref b (seq 0 n) sh).
Proof.
  intros E Hb. split; [exact Hb|]. split; [apply seq_NoDup|].
  cbn [a_cells a_buf]. apply Forall_forall. intros j Hj. apply in_seq in Hj.
  unfold buffer. subst n.
  do 11 (destruct b as [|b]; [cbn in *; lia|]). lia.
Qed.

Definition ex_args : margs := mkArgs "polycrystalline" false 1 false 1.
(** Reads copies, makes an array, an array view and new objects, calls methods that hand
    out internal memory, and writes to the copies, the view and the new array *)
Definition ex_copies : list op :=
  [ Property 0 Wavenumbers; Write 6 0 (num 7); Property 1 AtomicNumbers; SetList 7 [1%Z; 2%Z];
    Property 2 PositionsTs; View 8 [0; 1] [2]; Write 9 1 (num 9); Measure 3 ex_args;
    NewArray [1] [num 3]; Write 12 0 (num 4); MakePhonons 0 6 2; Property 4 PolarizabilityTs ].
Lemma ex_copies_own : writes_own ex_kernel (from_now ex_world) ex_copies.
Proof.
  repeat split; intros i h org Hi Hn; try discriminate Hi;
    injection Hi as <-; vm_compute in Hn; injection Hn as <- <-; reflexivity.
Qed.
Lemma ex_copies_write :
  show_val (st_mem (run ex_kernel (from_now ex_world) ex_copies)) (HArr (mkAref 11 [0; 1] [2]))
  = SArr [2] [num 7; num 200].
Proof. reflexivity. Qed.
