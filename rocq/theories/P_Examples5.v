(** Concrete structures, files and file systems that meet the hypotheses of the file theorems. *)
From Coq Require Import String Ascii ZArith NArith Reals Bool Arith List Lia Lra.
From Verif Require Import Base LinAlg Constants M_Validate M_StructUtils M_Symmetry M_Reference M_Text M_Poscar M_Files M_Displace
  S_Lattice S_Interp S_Text S_Files S_Displace P_Text P_Poscar P_Poscar2 P_Poscar3 P_Poscar4 P_Files P_Displace P_Displace2.
Import ListNotations.

(** Exact arithmetic; no inverse of non-finite lattices; everything printable *)
Definition exE : env := mkEnv M_Text.Fin (fun _ => None) (fun _ => true).
Definition exl : narr := narr_lattice mI.
Definition exn : list Z := [1; 8; 8]%Z.
Definition exv : list V3 := [mkV 0 0 0; mkV (/2) 0 0; mkV 0 (/2) (/4)]%R.
Definition exp : narr := narr_of (M_Symmetry.Fin exv).
Lemma exn_ne : exn <> []. Proof. discriminate. Qed.
Lemma exn_known : Forall known exn.
Proof. repeat constructor; cbn; discriminate. Qed.
Lemma exn_contiguous : contiguous exn.
Proof.
  intros i j k x H Hi Hk. unfold exn in *.
  destruct i as [|[|[|i]]]; destruct j as [|[|[|j]]]; destruct k as [|[|[|k]]]; cbn in *; try lia; try congruence;
    destruct k; discriminate.
Qed.
Lemma exv_in : Forall (vall (fun x => 0 <= x <= 1)%R) exv.
Proof. assert (H : forall a b c, (0 <= a <= 1 -> 0 <= b <= 1 -> 0 <= c <= 1 -> vall (fun x => 0 <= x <= 1) (mkV a b c))%R) by (intros; repeat split; cbn; tauto).
  constructor; [apply H; lra|]. constructor; [apply H; lra|]. constructor; [apply H; lra|constructor].
Qed.
Lemma exp_valid : valid_structure exl exn exp.
Proof. apply narr_of_valid; [exact exn_known|reflexivity|exact exv_in]. Qed.

(** two configurations *)
Definition ext : narr := mkNarr [2; 3; 3]%nat (na_data exp ++ na_data exp).
Lemma ext_valid : valid_trajectory exl exn ext.
Proof.
  split; [reflexivity|]. split; [exact exn_known|]. split; [exists 2%nat; reflexivity|].
  apply Forall_app. split; apply exp_valid.
Qed.
Lemma ex_C46 : valid_structure exl exn exp /\ exn <> [] /\ contiguous exn /\ e_fl exE 1%R = Fin 1 /\ narr_wf exl /\ narr_wf exp /\
  exists pieces, structure_pieces exE exl exn exp (txt "label") = Ok pieces.
Proof.
  repeat split; try apply exp_valid; try discriminate; try apply exn_contiguous.
  apply f_C46_success. repeat split; try apply exp_valid; try discriminate; try apply exn_contiguous.
Qed.
Lemma ex_C52 : valid_trajectory exl exn ext /\ exn <> [] /\ contiguous exn /\ narr_wf exl /\ narr_wf ext /\
  exists pieces, trajectory_pieces exE exl exn ext (txt "label") = Ok pieces.
Proof.
  repeat split; try apply ext_valid; try discriminate; try apply exn_contiguous.
  apply f_C52_success. repeat split; try apply ext_valid; try discriminate; try apply exn_contiguous.
Qed.
Lemma ex_C50 : exists content lat pos, read_structure exE content = Ok (lat, exn, pos) /\ List.length pos = 3%nat.
Proof.
  destruct ex_C46 as (Hv & Hn & Hc & Hf & Hl & Hp & pieces & Hs).
  destruct (f_C46_roundtrip _ _ _ _ _ _ Hf Hl Hp Hs) as (lat & pos & Hr & _ & _ & Hlen & _).
  exists (concat pieces), lat, pos. split; [exact Hr|exact Hlen].
Qed.
Lemma ex_C53 : exists content ps, read_positions_ts exE content = Ok ps /\ List.length ps = 2%nat.
Proof.
  destruct ex_C52 as (Hv & Hn & Hc & Hl & Hp & pieces & Hs).
  destruct (f_C52_roundtrip exE _ _ _ _ _ eq_refl Hl Hp Hs) as (ps & Hr & Hlen & _).
  exists (concat pieces), ps. split; [exact Hr|]. cbn in Hlen. congruence.
Qed.

(** a file with scale factor 2 and Cartesian coordinates *)
Definition ex_cart_file : text := txt "c
2
1 0 0
0 1 0
0 0 1
H O
1 1
Cartesian
0 0 1
1 0 0
".
Lemma ex_C51 : exists lat numbers p,
  read_structure exE ex_cart_file = Ok (lat, numbers, p) /\
  float_of (e_fl exE) (line 1 (universal ex_cart_file)) = Some (M_Text.Fin 2) /\
  rows_at exE (universal ex_cart_file) 2 (rows3 mI) /\
  mode_line (after_lines 7 (universal ex_cart_file)) 0 /\ starts (line (7 + 0) (universal ex_cart_file)) 99 /\
  (1 < List.length numbers)%nat /\ row_at exE (universal ex_cart_file) (8 + 0 + 1) (fin3 (mkV 1 0 0)).
Proof.
  assert (Hs : float_of (e_fl exE) (line 1 (universal ex_cart_file)) = Some (M_Text.Fin 2)).
  { cbv -[IZR powerRZ Rmult Rdiv Ropp Rplus pow]. do 2 f_equal. cbn. lra. }
  assert (R0 : forall k a b c, split (line k (universal ex_cart_file)) = [[a]; [b]; [c]] ->
    forall x y z, float_of (e_fl exE) [a] = Some (M_Text.Fin x) -> float_of (e_fl exE) [b] = Some (M_Text.Fin y) ->
      float_of (e_fl exE) [c] = Some (M_Text.Fin z) -> row_at exE (universal ex_cart_file) k (fin3 (mkV x y z))).
  { intros k a b c Hk x y z Hx Hy Hz. exists [a], [b], [c], []. rewrite Hk. auto. }
  assert (F0 : float_of (e_fl exE) [48%N] = Some (M_Text.Fin 0)).
  { cbv -[IZR powerRZ Rmult Rdiv Ropp Rplus pow]. do 2 f_equal. cbn. lra. }
  assert (F1 : float_of (e_fl exE) [49%N] = Some (M_Text.Fin 1)).
  { cbv -[IZR powerRZ Rmult Rdiv Ropp Rplus pow]. do 2 f_equal. cbn. lra. }
  assert (Hr : rows_at exE (universal ex_cart_file) 2 (rows3 mI)).
  { intros i v Hi. destruct i as [|[|[|i]]]; cbn in Hi; try (destruct i; discriminate); injection Hi as <-.
    - apply (R0 2%nat 49%N 48%N 48%N); auto.
    - apply (R0 3%nat 48%N 49%N 48%N); auto.
    - apply (R0 4%nat 48%N 48%N 49%N); auto. }
  assert (Hm : mode_line (after_lines 7 (universal ex_cart_file)) 0).
  { left. split; [reflexivity|]. intros (d & t & Hd & Hl). vm_compute in Hd. injection Hd as <- _. discriminate. }
  assert (Hc : starts (line (7 + 0) (universal ex_cart_file)) 99).
  { eexists _, _. split; [vm_compute; reflexivity|reflexivity]. }
  assert (Hrow : row_at exE (universal ex_cart_file) (8 + 0 + 1) (fin3 (mkV 1 0 0))).
  { apply (R0 9%nat 49%N 48%N 48%N); auto. }
  assert (H8 : row_at exE (universal ex_cart_file) (7 + (1 + 0)) (fin3 (mkV 0 0 1))).
  { apply (R0 8%nat 48%N 48%N 49%N); auto. }
  assert (H9 : row_at exE (universal ex_cart_file) (7 + (1 + 1)) (fin3 (mkV 1 0 0))).
  { apply (R0 9%nat 49%N 48%N 48%N); auto. }
  destruct (np_inv exE (map (n3_scale (M_Text.Fin 2)) (rows3 mI))) as [inv|e] eqn:Ei.
  - eexists _, _, _. split; [|repeat split; auto].
    + apply f_C50_format. split.
      * exists (M_Text.Fin 2), (rows3 mI). split; [exact Hs|]. split; [reflexivity|]. split; [exact Hr|]. split; [reflexivity|].
        exists [1; 8]%Z, [1; 1]%Z. split; [discriminate|]. split; [reflexivity|]. split; [|split; [|reflexivity]].
        -- constructor; [exists "H"%string; split; [vm_compute; auto 200|reflexivity]|].
           constructor; [exists "O"%string; split; [vm_compute; auto 200|reflexivity]|constructor].
        -- constructor; [reflexivity|constructor; [reflexivity|constructor]].
      * eexists. exists 0%nat, [fin3 (mkV 0 0 1); fin3 (mkV 1 0 0)]. split; [exact Hm|]. split; [reflexivity|]. split.
        { intros i v Hi. destruct i as [|[|i]]; cbn in Hi; try (destruct i; discriminate); injection Hi as <-.
          - apply row_at_after. exact H8.
          - apply row_at_after. exact H9. }
        split; [reflexivity|]. right. split; [rewrite line_after; exact Hc|]. split; [discriminate|]. eauto.
    + change (1 < 2)%nat. lia.
  - exfalso. revert Ei. unfold np_inv.
    cbn [map rows3 fin3 n3_scale nx ny nz num_mul].
    cbn [finite33 rows3]. cbn. unfold minv.
    destruct (Req_EM_T _ _) as [H|H]; [|discriminate]. exfalso. revert H. vunf. cbn. lra.
Qed.

Lemma f_C50_rows E content p : read_positions E content = Ok p ->
  exists lat numbers, header_of E (universal content) lat numbers /\ List.length p = List.length numbers.
Proof.
  rewrite f_C50_positions. destruct (read_structure E content) as [[[lat numbers] q]|e] eqn:Er; [|discriminate].
  intros H. cbn in H. injection H as <-. apply f_C50_format in Er as (Hh & rest & k & rows & _ & Hl & _ & _ & Hd).
  exists lat, numbers. split; [exact Hh|].
  destruct Hd as [[_ ->] | (_ & _ & inv & _ & ->)]; [exact Hl|now rewrite map_length].
Qed.
(** The format's own reading: Cartesian coordinates are multiplied by the scale factor too *)
Lemma f_C51_refuted E content lat numbers p s A k i x :
  read_structure E content = Ok (lat, numbers, p) ->
  float_of (e_fl E) (line 1 (universal content)) = Some (M_Text.Fin s) ->
  rows_at E (universal content) 2 (rows3 A) ->
  mode_line (after_lines 7 (universal content)) k -> starts (line (7 + k) (universal content)) 99 ->
  (i < List.length numbers)%nat -> row_at E (universal content) (8 + k + i) (fin3 x) ->
  s <> 1%R -> x <> v0 ->
  exists y, nth_error p i = Some (fin3 y) /\ vmul y (mscale s A) <> vscale s x.
Proof.
  intros H1 H2 H3 H4 H5 H6 H7 Hs Hx.
  destruct (f_C51_cartesian _ _ _ _ _ _ _ _ _ _ H1 H2 H3 H4 H5 H6 H7) as (y & Hy & Hm).
  exists y. split; [exact Hy|]. rewrite Hm. intros Hv. apply Hx.
  assert (Hz : (s - 1 <> 0)%R) by lra.
  apply V3_eq; cbn; [apply (f_equal vx) in Hv|apply (f_equal vy) in Hv|apply (f_equal vz) in Hv]; cbn in Hv;
    apply (Rmult_eq_reg_l (s - 1)); auto; lra.
Qed.

(** ** Displaced structures *)
Definition exr : refstruct := mkRef exn mI exv [] [] [].
Definition exd : list V3 := [v0; mkV 1 0 0; v0].
Definition exq : list path := [txt "a"; txt "b"].
Lemma ex_mI : mdet mI <> 0%R. Proof. vunf. cbn. lra. Qed.
Lemma ex_C55 :
  mdet (rs_lattice exr) <> 0%R /\ List.length exd = List.length (rs_positions exr) /\ (exists v, In v exd /\ v <> v0) /\
  List.length (rs_numbers exr) = List.length (rs_positions exr) /\ Forall known (rs_numbers exr) /\ contiguous (rs_numbers exr) /\
  e_fl exE 1%R = M_Text.Fin 1 /\ List.length exq = List.length [1; -1]%R /\ NoDup exq.
Proof.
  split; [exact ex_mI|]. split; [reflexivity|]. split.
  { exists (mkV 1 0 0). split; [right; left; reflexivity|]. intros H. apply (f_equal vx) in H. cbn in H. lra. }
  split; [reflexivity|]. split; [exact exn_known|]. split; [exact exn_contiguous|]. split; [reflexivity|]. split; [reflexivity|].
  repeat constructor; cbn; intuition discriminate.
Qed.
(** a directory with one existing file and one unusable path *)
Definition exfs : fs := fun p => if teqb p (txt "b") then Present (txt "old") else if teqb p (txt "d/x") then Blocked FileNotFoundError else Absent.
Lemma ex_C55_partial_run : exists o g,
  write_displaced_structures exE exr (Rows (M_Symmetry.Fin exd)) (Some [1; -1]%R) exq "poscar" false exfs o g /\
  o = Raised FileExistsError /\ g (txt "b") = Present (txt "old") /\ exists t, g (txt "a") = Present t.
Proof.
  destruct ex_C55 as (H1 & H2 & H3 & H4 & H5 & H6 & H7 & H8 & H9).
  destruct (f_C55_positions exr exd [1; -1]%R H1 H2 H3) as (qs & Hq & HF).
  inversion HF as [|a1 q1 l1 m1 Hm1 HF1 Ea Eb]; subst. inversion HF1 as [|a2 q2 l2 m2 Hm2 HF2 Ea Eb]; subst. inversion HF2; subst.
  assert (V : forall a q, moved (rs_lattice exr) (rs_positions exr) (rows_scale a (direction_of exd)) q ->
    exists ps, job_pieces exE exr "poscar" (M_Symmetry.Fin q) = Ok ps).
  { intros a q Hm.
    assert (Hl : List.length q = 3%nat) by (eapply (moved_len _ (rs_positions exr)); [|exact Hm]; reflexivity).
    destruct Hm as (x & _ & Hm). apply cell_images_in_cell in Hm.
    pose proof (narr_of_valid mI exn (M_Symmetry.Fin q) exn_known Hl Hm) as Hv.
    destruct (proj2 (f_C46_success exE _ _ _ structure_label) (conj Hv (conj exn_ne exn_contiguous))) as [ps Hp].
    exists ps. unfold job_pieces, generic_pieces. cbn [supported structure_formats existsb String.eqb Ascii.eqb Bool.eqb orb].
    cbn [rs_lattice rs_numbers exr]. rewrite Hp. reflexivity. }
  destruct (V _ _ Hm1) as [ps1 Hp1]. destruct (V _ _ Hm2) as [ps2 Hp2].
  destruct (run_progress exfs (txt "a") false ps1) as [g Hg]; [left; reflexivity|].
  pose proof (run_ok _ _ _ _ _ _ Hg) as [Hs Hw]. cbn in Hw.
  exists (Raised FileExistsError), g. split; [|split; [reflexivity|split; [|eauto]]].
  - eapply all_loop; [discriminate|exact Hq|reflexivity|]. cbn [map combine exq].
    eapply loop_next; [unfold generic_write_structure; change (generic_pieces _ _ _) with (job_pieces exE exr "poscar" (M_Symmetry.Fin q1)); rewrite Hp1; exact Hg|].
    apply loop_stop; [discriminate|]. unfold generic_write_structure.
    change (generic_pieces _ _ _) with (job_pieces exE exr "poscar" (M_Symmetry.Fin q2)). rewrite Hp2.
    eapply run_open; [reflexivity|]. unfold open_write. rewrite (Hs (txt "b")) by discriminate. reflexivity.
  - rewrite (Hs (txt "b")) by discriminate. reflexivity.
Qed.
Lemma ex_C55_256 : exists amps : list R, exists paths : list path,
  List.length paths = List.length amps /\ (256 < List.length amps)%nat /\
  exists o g, write_displaced_structures exE exr (Rows (M_Symmetry.Fin exd)) (Some amps) paths "poscar" true exfs o g.
Proof.
  exists (repeat 0%R 257), (repeat (txt "a") 257). rewrite !repeat_length. split; [reflexivity|]. split; [lia|].
  destruct ex_C55 as (H1 & H2 & H3 & _).
  destruct (f_C55_positions exr exd (repeat 0%R 257) H1 H2 H3) as (qs & Hq & HF).
  exists (Raised ValueError), exfs. eapply all_length; [discriminate|exact Hq|].
  rewrite map_length, <- (F2_length _ _ _ HF), !repeat_length. apply list_len_bad. lia.
Qed.
Lemma ex_C56 : mdet (rs_lattice exr) <> 0%R /\ List.length [v0; v0; v0] = List.length (rs_positions exr) /\
  [v0; v0; v0] <> [] /\ Forall (fun v => v = v0) [v0; v0; v0].
Proof. split; [exact ex_mI|]. split; [reflexivity|]. split; [discriminate|]. repeat constructor. Qed.
(** a history of writes *)
Lemma ex_C54 : exists g, history exE exfs
  [(CallStructure exl exn exp (txt "b") false (txt "x"), Raised FileExistsError);
   (CallTrajectory exl exn ext (txt "d/x") true (txt "x"), Raised FileNotFoundError);
   (CallStructure exl exn exp (txt "a") false (txt "x"), Interrupted);
   (CallGenericStructure exl exn exp (txt "a") "poscar" true, Done)] g /\
  g (txt "b") = Present (txt "old").
Proof.
  destruct (proj2 (f_C46_success exE exl exn exp (txt "x")) (conj exp_valid (conj exn_ne exn_contiguous))) as [ps Hps].
  destruct (proj2 (f_C46_success exE exl exn exp structure_label) (conj exp_valid (conj exn_ne exn_contiguous))) as [pg Hpg].
  destruct (proj2 (f_C52_success exE exl exn ext (txt "x")) (conj ext_valid (conj exn_ne exn_contiguous))) as [pt Hpt].
  destruct (run_prefix exfs (txt "a") false ps []) as (g1 & Hg1 & Ha); [left; reflexivity|exists (concat ps); reflexivity|].
  destruct (run_progress g1 (txt "a") true pg) as (g2 & Hg2); [right; eauto|].
  exists g2. split.
  - econstructor; [cbn [performs]; unfold write_structure; rewrite Hps; eapply run_open; reflexivity|].
    econstructor; [cbn [performs]; unfold write_trajectory; rewrite Hpt; eapply run_open; reflexivity|].
    econstructor; [cbn [performs]; unfold write_structure; rewrite Hps; exact Hg1|].
    econstructor; [cbn [performs]; unfold generic_write_structure, generic_pieces; rewrite Hpg; exact Hg2|constructor].
  - pose proof (run_changes _ _ _ _ _ _ Hg2) as [H2 _]. pose proof (run_changes _ _ _ _ _ _ Hg1) as [H1 _].
    rewrite (H2 (txt "b")), (H1 (txt "b")) by discriminate. reflexivity.
Qed.
