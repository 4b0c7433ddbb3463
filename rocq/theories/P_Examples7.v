(** Concrete OUTCAR and vasprun.xml files that meet the hypotheses of C57-C62. *)
From Coq Require Import String Ascii ZArith NArith QArith Qreals Reals Bool Arith List Lia Lra Sorted.
From Verif Require Import Base LinAlg Constants M_Validate M_StructUtils M_Text M_Poscar M_Outcar M_Vasprun
  S_Text S_Lattice S_Outcar S_Vasprun
  P_Text P_Outcar P_Outcar2 P_Outcar3 P_Vasprun.
Import ListNotations.
Local Open Scope nat_scope.

Definition oE : env := mkEnv Fin (fun _ => None) (fun _ => true).
Lemma oF0 : float_of (e_fl oE) (txt "0") = Some (Fin 0).
Proof. cbv -[IZR powerRZ Rmult Rdiv Ropp Rplus pow]. do 2 f_equal. cbn. lra. Qed.
Lemma oF1 : float_of (e_fl oE) (txt "1") = Some (Fin 1).
Proof. cbv -[IZR powerRZ Rmult Rdiv Ropp Rplus pow]. do 2 f_equal. cbn. lra. Qed.
Lemma oF5 : float_of (e_fl oE) (txt "5") = Some (Fin 5).
Proof. cbv -[IZR powerRZ Rmult Rdiv Ropp Rplus pow]. do 2 f_equal. cbn. lra. Qed.
Lemma row3_at l a b c x y z : firstn 3 (split l) = [a; b; c] ->
  float_of (e_fl oE) a = Some (Fin x) -> float_of (e_fl oE) b = Some (Fin y) -> float_of (e_fl oE) c = Some (Fin z) ->
  row_of oE l (entries3 (fin3 (mkV x y z))).
Proof. intros H Ha Hb Hc. unfold row_of. rewrite H. constructor; [exact Ha|]. constructor; [exact Hb|]. constructor; [exact Hc|constructor]. Qed.
Ltac orow := eapply row3_at; [vm_compute; reflexivity|first [exact oF0|exact oF1|exact oF5]..].
Ltac orows := repeat (apply Forall2_cons; [orow|]); apply Forall2_nil.
Ltac ofirst := apply skip_until_ok; vm_compute; reflexivity.
Definition ln (s : string) : text := txt s ++ [NL].

(** Two atoms, and a trajectory of four position blocks, the second of them machine-learned *)
Definition o_head : file := map ln
  [" POTCAR:    PAW_PBE H 15Jun2001 "; " POTCAR:    PAW_PBE O_s 07Sep2000 "; " POTCAR:    PAW_PBE H 15Jun2001 "; "   SHA256"; "   VRHFIN =H: ultrasoft test"]%string.
Definition o_ions : file := map ln ["   ions per type =               1   1"]%string.
Definition o_time : file := map ln ["   POTIM = 1    time-step for ionic-motion"]%string.
Definition o_lattice : file := map ln [" Write flags"; "      direct lattice vectors                 reciprocal lattice vectors"; " 1 0 0   1 0 0"; " 0 1 0   0 1 0"; " 0 0 1   0 0 1"]%string.
Definition o_marker : text := ln " position of ions in fractional coordinates (direct lattice) ".
Definition o_body : file := map ln [" 0 0 0"; " 0 1 0"]%string.
Definition o_tensor : file := map ln ["  MACROSCOPIC STATIC DIELECTRIC TENSOR (including local field effects in DFT)"; " ----"; "  5 0 0"; "  0 5 1"; "  0 1 5"; " ----"]%string.
Definition o_block (ml : string) (rows : list string) : file :=
  (txt " POSITION                                       TOTAL-FORCE (eV/Angst)" ++ txt ml ++ [NL]) :: ln " ----" :: map ln rows.
Definition o_blocks : file :=
  o_block "" ["  0 0 0   0 0 0"; " 0 1 0  0 0 0"]%string ++ o_block " (ML)" ["  1 0 0   0 0 0"; " 0 1 0  0 0 0"]%string ++
  o_block "" ["  1 1 0   0 0 0"; " 0 1 0  0 0 0"]%string ++ o_block "" ["  5 0 0   0 0 0"; " 0 1 5  0 0 0"]%string.
Definition o_file : file := o_head ++ o_ions ++ o_time ++ o_lattice ++ (o_marker :: o_body) ++ o_tensor ++ o_blocks.
Definition o_species : list text := [txt "H"; txt "O"].
Lemma o_lines : file_lines (concat o_file) o_file.
Proof. apply file_lines_open. vm_compute. reflexivity. Qed.
Lemma o_species_ok : species o_file o_species (o_time ++ o_lattice ++ (o_marker :: o_body) ++ o_tensor ++ o_blocks).
Proof. apply symbols_ok. vm_compute. reflexivity. Qed.
Lemma o_body_rows : rows3_at oE o_body [mkV 0 0 0; mkV 0 1 0].
Proof. unfold rows3_at. orows. Qed.
Lemma o_lattice_ok f : lattice_block oE (o_lattice ++ f) (matrix mI) f.
Proof.
  eexists _, _, _, (map ln [" 1 0 0   1 0 0"; " 0 1 0   0 1 0"; " 0 0 1   0 0 1"]%string ++ f).
  split; [exists []; split; [reflexivity|]; split; [constructor|apply contains_spec; vm_compute; reflexivity]|].
  split; [exists []; split; [reflexivity|]; split; [constructor|apply contains_spec; vm_compute; reflexivity]|].
  apply (rows3_table oE (map ln [" 1 0 0   1 0 0"; " 0 1 0   0 1 0"; " 0 0 1   0 0 1"]%string) [mkV 1 0 0; mkV 0 1 0; mkV 0 0 1]%R); [discriminate|].
  unfold rows3_at. orows.
Qed.
(** C57, C58, C60 *)
Lemma ex_C57 : first_with (txt "ions per type") o_file (ln "   ions per type =               1   1") (o_time ++ o_lattice ++ (o_marker :: o_body) ++ o_tensor ++ o_blocks) /\
  nowhere (txt "no such marker") o_file.
Proof. split; [ofirst|]. apply (proj1 (skip_until_err (txt "no such marker") o_file NoMatchingLineFoundException)). vm_compute. reflexivity. Qed.
Lemma ex_C58 : exists r, file_lines (concat o_file) o_file /\ species o_file o_species r /\
  first_with (txt "position of ions in fractional coordinates (direct lattice)") r o_marker (o_body ++ o_tensor ++ o_blocks) /\
  rows3_at oE o_body [mkV 0 0 0; mkV 0 1 0] /\ List.length o_body = List.length o_species /\ o_species <> [].
Proof.
  eexists. split; [exact o_lines|]. split; [exact o_species_ok|]. split; [ofirst|]. split; [exact o_body_rows|]. split; [reflexivity|discriminate].
Qed.
(** truncated copies *)
Definition o_cut0 : file := o_head ++ o_ions ++ [o_marker].
Definition o_cut1 : file := o_head ++ o_ions ++ [o_marker; ln " 0 0 0"].
Lemma ex_C58_cut : (exists r, file_lines (concat o_cut0) o_cut0 /\ species o_cut0 o_species r /\
    first_with (txt "position of ions in fractional coordinates (direct lattice)") r o_marker []) /\
  (exists r, file_lines (concat o_cut1) o_cut1 /\ species o_cut1 o_species r /\
    first_with (txt "position of ions in fractional coordinates (direct lattice)") r o_marker [ln " 0 0 0"] /\
    rows3_at oE [ln " 0 0 0"] [mkV 0 0 0] /\ 1 < List.length o_species).
Proof.
  split; eexists.
  - split; [apply file_lines_open; vm_compute; reflexivity|]. split; [apply symbols_ok; vm_compute; reflexivity|]. ofirst.
  - split; [apply file_lines_open; vm_compute; reflexivity|]. split; [apply symbols_ok; vm_compute; reflexivity|]. split; [ofirst|].
    split; [unfold rows3_at; orows|cbn; lia].
Qed.
Lemma ex_C60 : exists lat a t, outcar_read_structure_and_polarizability oE (concat o_file) = Ok (lat, [1; 8]%Z, a, t).
Proof.
  exists (matrix mI), (array2 [mkV 0 0 0; mkV 0 1 0]), (array2 [mkV 5 0 0; mkV 0 5 1; mkV 0 1 5]). apply (f_C60_structure _ _ _ _ _ _ _ o_lines).
  exists o_species. eexists. eexists. eexists. eexists. split; [exact o_species_ok|]. split; [|split; [|split]].
  - constructor; [exists "H"%string; split; [vm_compute; auto 200|reflexivity]|]. constructor; [exists "O"%string; split; [vm_compute; auto 200|reflexivity]|constructor].
  - destruct (o_lattice_ok ((o_marker :: o_body) ++ o_tensor ++ o_blocks)) as (l0 & f0 & l & f1 & H0 & H1 & Ht). exists l0, f0, l, f1.
    split; [|split; [exact H1|exact Ht]]. destruct H0 as (pre & Hp & Hn & Ho). exists (o_time ++ pre).
    split; [rewrite Hp, app_assoc; reflexivity|]. split; [|exact Ho]. apply Forall_app. split; [|exact Hn].
    constructor; [apply contains_false; vm_compute; reflexivity|constructor].
  - eexists o_marker, (o_body ++ o_tensor ++ o_blocks). split; [exists []; split; [reflexivity|]; split; [constructor|apply contains_spec; vm_compute; reflexivity]|].
    apply (rows3_table oE o_body); [discriminate|exact o_body_rows].
  - eexists _, _. split; [exists []; split; [reflexivity|]; split; [constructor|apply contains_spec; vm_compute; reflexivity]|].
    apply (rows3_table oE (map ln ["  5 0 0"; "  0 5 1"; "  0 1 5"]%string) _ (ln " ----" :: o_blocks)); [discriminate|]. unfold rows3_at. orows.
Qed.
(** C59 *)
Definition o_steps : list block :=
  [(false, [mkV 0 0 0; mkV 0 1 0]); (true, [mkV 1 0 0; mkV 0 1 0]); (false, [mkV 1 1 0; mkV 0 1 0]); (false, [mkV 5 0 0; mkV 0 1 5])].
Lemma ex_C59 : exists lt r r1,
  first_with (txt "time-step for ionic-motion") (o_time ++ o_lattice ++ r) lt r1 /\ timestep_line oE lt (Fin 1) /\
  lattice_block oE r1 (matrix mI) r /\ mmul mI mI = mI /\ blocks_in oE 2 r o_steps /\
  steps_are o_steps [[mkV 0 0 0; mkV 0 1 0]; [mkV 1 0 0; mkV 0 1 0]; [mkV 5 0 0; mkV 0 1 5]].
Proof.
  eexists _, ((o_marker :: o_body) ++ o_tensor ++ o_blocks), _.
  split; [exists []; split; [reflexivity|]; split; [constructor|apply contains_spec; vm_compute; reflexivity]|].
  split; [exists (txt "1"); split; [vm_compute; reflexivity|exact oF1]|].
  split; [apply o_lattice_ok|]. split; [apply mmul_mI_l|]. split.
  - assert (Hb : forall ml b2 body vs f bs, blocks_in oE 2 f bs -> nowhere block_marker body -> rows3_at oE body vs -> List.length vs = 2 ->
       contains (txt "(ML)") (hd [] (o_block ml [])) = b2 -> contains block_marker (hd [] (o_block ml [])) = true ->
       forall pre, nowhere block_marker pre ->
       blocks_in oE 2 (pre ++ (hd [] (o_block ml []) :: ln " ----" :: body ++ f)) ((b2, vs) :: bs)).
    { intros ml b2 body vs f bs Hf Hn Hr Hl Hc Hp pre Hpre. eapply blocks_cons with (l := hd [] (o_block ml [])) (sep := ln " ----") (body := body) (f' := f); auto.
      - exists pre. split; [reflexivity|]. split; [exact Hpre|]. apply contains_spec. exact Hp.
      - rewrite <- contains_spec, Hc. reflexivity.
      - apply contains_false. vm_compute. reflexivity. }
    assert (Hn : forall l, forallb (fun x => negb (contains block_marker x)) l = true -> nowhere block_marker l).
    { intros l H. apply Forall_forall. intros x Hx. rewrite forallb_forall in H. specialize (H x Hx). apply contains_false. destruct (contains _ x); [discriminate|reflexivity]. }
    change ((o_marker :: o_body) ++ o_tensor ++ o_blocks) with (((o_marker :: o_body) ++ o_tensor) ++ o_blocks).
    apply (Hb ""%string false (map ln ["  0 0 0   0 0 0"; " 0 1 0  0 0 0"]%string)); [|apply Hn; vm_compute; reflexivity|unfold rows3_at; orows|reflexivity..|apply Hn; vm_compute; reflexivity].
    apply (Hb " (ML)"%string true (map ln ["  1 0 0   0 0 0"; " 0 1 0  0 0 0"]%string)) with (pre := []); [|apply Hn; vm_compute; reflexivity|unfold rows3_at; orows|reflexivity..|constructor].
    apply (Hb ""%string false (map ln ["  1 1 0   0 0 0"; " 0 1 0  0 0 0"]%string)) with (pre := []); [|apply Hn; vm_compute; reflexivity|unfold rows3_at; orows|reflexivity..|constructor].
    apply (Hb ""%string false (map ln ["  5 0 0   0 0 0"; " 0 1 5  0 0 0"]%string)) with (pre := []) (f := []); [|apply Hn; vm_compute; reflexivity|unfold rows3_at; orows|reflexivity..|constructor].
    constructor. constructor.
  - exists [0; 1; 3]. split; [repeat constructor|]. split.
    + intros i. unfold counts_as_step. split.
      * intros [<- | [<- | [<- | []]]]; eexists; (split; [reflexivity|]); cbn; [right; left; reflexivity|left; reflexivity|right; right; eexists; split; reflexivity].
      * intros (b & Hb & H). destruct i as [|[|[|[|i]]]]; [left; reflexivity|right; left; reflexivity| |right; right; left; reflexivity|destruct i; discriminate].
        exfalso. injection Hb as <-. cbn in H. destruct H as [H | [H | (b' & H & H')]]; [discriminate|discriminate|injection H as <-; discriminate].
    + repeat (apply Forall2_cons; [eexists; reflexivity|]). apply Forall2_nil.
Qed.
(** C61: one atom, three modes, the second imaginary *)
Definition q_head : file := map ln [" POTCAR:    PAW_PBE H 15Jun2001 "; "   SHA256"; "   VASP"; "   ions per type =               1"]%string.
Definition q_pos : file := [o_marker; ln " 0 0 0"].
Definition q_mode (l row : string) : file := map ln [l; "             X         Y         Z           dx          dy          dz"; row; ""]%string.
Definition q_modes : file :=
  q_mode "   1 f  =    5 THz   0 2PiTHz  5 cm-1    0 meV" " 0 0 0  1 0 0" ++
  q_mode "   2 f/i=    5 THz   0 2PiTHz  5 cm-1    0 meV" " 0 0 0  0 1 0" ++
  q_mode "   3 f  =    1 THz   0 2PiTHz  1 cm-1    0 meV" " 0 0 0  0 0 1".
Definition q_eig : text := ln " Eigenvectors and eigenvalues of the dynamical matrix".
Definition q_file : file := q_head ++ o_lattice ++ q_pos ++ q_eig :: q_modes.
Definition q_list : list (num * list V3) := [(Fin 5, [mkV 1 0 0]); (Fin (-5), [mkV 0 1 0]); (Fin 1, [mkV 0 0 1])].
Lemma ex_C61 : exists f0 f1 f2 f3, file_lines (concat q_file) q_file /\ species q_file [txt "H"] f0 /\
  masses_are [txt "H"] [Q2R (1008 # 1000)] /\ lattice_block oE f0 (matrix mI) f1 /\ mmul mI mI = mI /\
  fractional_block oE 1 f1 (array2 [mkV 0 0 0]) f2 /\
  first_with (txt "Eigenvectors and eigenvalues of the dynamical matrix") f2 q_eig f3 /\
  modes_in oE 1 f3 q_list /\ List.length q_list = 1 * 3.
Proof.
  exists (o_lattice ++ q_pos ++ q_eig :: q_modes), (q_pos ++ q_eig :: q_modes), (q_eig :: q_modes), q_modes.
  split; [apply file_lines_open; vm_compute; reflexivity|]. split; [apply symbols_ok; vm_compute; reflexivity|].
  split; [constructor; [exists "H"%string, (1008 # 1000); split; [vm_compute; auto 200|split; reflexivity]|constructor]|].
  split; [apply o_lattice_ok|]. split; [apply mmul_mI_l|]. split.
  { eexists o_marker, ([ln " 0 0 0"] ++ q_eig :: q_modes). split; [exists []; split; [reflexivity|]; split; [constructor|apply contains_spec; vm_compute; reflexivity]|].
    apply (rows3_table oE [ln " 0 0 0"]); [discriminate|]. unfold rows3_at. orows. }
  split; [exists []; split; [reflexivity|]; split; [constructor|apply contains_spec; vm_compute; reflexivity]|]. split; [|reflexivity].
  assert (Hm : forall l row w v f ms, modes_in oE 1 f ms -> contains (txt "cm-1") (ln l) = true -> wavenumber_of oE (ln l) w ->
    contains (txt "X") (ln row) = false -> vector_of oE (ln row) v -> modes_in oE 1 (q_mode l row ++ f) ((w, [v]) :: ms)).
  { intros l row w v f ms Hf Hc Hw Hx Hv.
    eapply modes_cons with (l := ln l) (body := map ln ["             X         Y         Z           dx          dy          dz"; row]%string) (f' := ln "" :: f).
    - exists []. split; [reflexivity|]. split; [constructor|apply contains_spec; exact Hc].
    - exact Hw.
    - apply vectors_skip; [apply contains_spec; vm_compute; reflexivity| |discriminate].
      apply vectors_row; [apply contains_false; exact Hx|exact Hv|constructor].
    - reflexivity.
    - exact Hf. }
  assert (Hv : forall l a b c x y z, skipn 3 (split l) = [a; b; c] ->
     float_of (e_fl oE) a = Some (Fin x) -> float_of (e_fl oE) b = Some (Fin y) -> float_of (e_fl oE) c = Some (Fin z) -> vector_of oE l (mkV x y z)).
  { intros l a b c x y z H Ha Hb Hc. exists a, b, c. auto. }
  unfold q_modes, q_list. apply Hm.
  - apply Hm.
    + rewrite <- (app_nil_r (q_mode "   3 f  =    1 THz   0 2PiTHz  1 cm-1    0 meV" " 0 0 0  0 0 1")). apply Hm.
      * constructor.
      * vm_compute; reflexivity.
      * right. split; [apply contains_false; vm_compute; reflexivity|]. eexists. split; [vm_compute; reflexivity|exact oF1].
      * vm_compute; reflexivity.
      * eapply Hv; [vm_compute; reflexivity|first [exact oF0|exact oF1|exact oF5]..].
    + vm_compute; reflexivity.
    + left. split; [apply contains_spec; vm_compute; reflexivity|]. eexists. exists (Fin 5). split; [vm_compute; reflexivity|]. split; [exact oF5|].
      reflexivity.
    + vm_compute; reflexivity.
    + eapply Hv; [vm_compute; reflexivity|first [exact oF0|exact oF1|exact oF5]..].
  - vm_compute; reflexivity.
  - right. split; [apply contains_false; vm_compute; reflexivity|]. eexists. split; [vm_compute; reflexivity|exact oF5].
  - vm_compute; reflexivity.
  - eapply Hv; [vm_compute; reflexivity|first [exact oF0|exact oF1|exact oF5]..].
Qed.

(** ** vasprun.xml *)
Definition el (t : string) (kids : list xml) : xml := Elem (txt t) [] None kids.
Definition eln (t n : string) (kids : list xml) : xml := Elem (txt t) [(txt "name", txt n)] None kids.
Definition vrow (s : string) : xml := Elem (txt "v") [] (Some (txt s)) [].
Definition v_root : xml := el "modeling"
  [ el "atominfo" [el "atoms" []; eln "array" "atoms" [el "set" [el "rc" [Elem (txt "c") [] (Some (txt "H ")) []; el "c" []]]]];
    el "parameters" [eln "separator" "ionic" [Elem (txt "i") [(txt "name", txt "POTIM")] (Some (txt " 1 ")) []]];
    eln "structure" "initialpos" [el "crystal" [eln "varray" "basis" (map vrow ["1 0 0"; "0 1 0"; "0 0 1"]%string)]; eln "varray" "positions" [vrow " 0 1 0 "]];
    el "structure" [eln "varray" "positions" [vrow "0 1 5"]];
    el "calculation" [el "structure" [eln "varray" "positions" [vrow "0 0 0"]];
      el "dynmat" [Elem (txt "v") [(txt "name", txt "eigenvalues")] (Some (txt "5 -5 0")) [];
        eln "varray" "eigenvectors" (map vrow ["1 0 0"; "0 1 0"; "0 0 1"]%string)]];
    eln "structure" "finalpos" [eln "varray" "positions" [vrow "0 0 0"]];
    el "structure" [eln "varray" "positions" [vrow "5 0 1"]] ].
Definition v_parse (_ : text) : parsed := Tree v_root.
Lemma words3 t a b c x y z : split t = [a; b; c] ->
  float_of (e_fl oE) a = Some (Fin x) -> float_of (e_fl oE) b = Some (Fin y) -> float_of (e_fl oE) c = Some (Fin z) ->
  words_are oE t (entries3 (fin3 (mkV x y z))).
Proof. intros H Ha Hb Hc. unfold words_are. rewrite H. constructor; [exact Ha|]. constructor; [exact Hb|]. constructor; [exact Hc|constructor]. Qed.
Ltac ofl := first [exact oF0|exact oF1|exact oF5].
Ltac ovarray := unfold varray3; cbn [x_kids map eln el]; repeat (apply Forall2_cons; [eexists; split; [reflexivity|eapply words3; [vm_compute; reflexivity|ofl..]]|]); apply Forall2_nil.
Ltac opath := apply xfind_some; vm_compute; reflexivity.
Definition v_structs : list xml := [el "structure" [eln "varray" "positions" [vrow "0 1 5"]]; el "structure" [eln "varray" "positions" [vrow "5 0 1"]]].
Lemma ex_C62 : exists fs, unnamed_structures v_root v_structs /\
  Forall2 (fun s vs => exists v, first_at s [tag "varray"] v /\ varray3 oE v vs) v_structs fs /\
  Forall (fun vs => List.length vs = 1) fs /\ timestep_at oE v_root (Fin 1) /\ fs = [[mkV 0 1 5]; [mkV 5 0 1]].
Proof.
  eexists. split; [|split; [|split; [|split]]]; [| | | |reflexivity].
  - pose proof (structures_ok v_root) as H. vm_compute in H. exact H.
  - repeat (apply Forall2_cons; [eexists; split; [opath|ovarray]|]). apply Forall2_nil.
  - repeat constructor.
  - eexists _, _. split; [opath|]. split; [reflexivity|]. exact oF1.
Qed.
Lemma ex_C62_none : unnamed_structures (el "modeling" [eln "structure" "initialpos" []; el "calculation" [el "structure" []]]) [].
Proof. pose proof (structures_ok (el "modeling" [eln "structure" "initialpos" []; el "calculation" [el "structure" []]])) as H. vm_compute in H. exact H. Qed.
Lemma oFm5 : float_of (e_fl oE) (txt "-5") = Some (Fin (-5)).
Proof. cbv -[IZR powerRZ Rmult Rdiv Ropp Rplus pow]. do 2 f_equal. cbn. lra. Qed.
Lemma ex_C61_vasprun : symbols_are v_root [txt "H"] /\ masses_are [txt "H"] [Q2R (1008 # 1000)] /\
  array_at oE v_root initial_path (array2 [mkV 0 1 0]) /\ array_at oE v_root lattice_path (matrix mI) /\ mmul mI mI = mI /\
  eigenvalues_at oE v_root (map Fin [5; -5; 0]%R) /\ eigenvectors_at oE v_root [[mkV 1 0 0]; [mkV 0 1 0]; [mkV 0 0 1]].
Proof.
  split; [apply parse_symbols_ok; vm_compute; reflexivity|].
  split; [constructor; [exists "H"%string, (1008 # 1000); split; [vm_compute; auto 200|split; reflexivity]|constructor]|].
  split; [eexists; split; [opath|apply varray3_array; [discriminate|ovarray]]|].
  split; [eexists; split; [opath|apply varray3_array; [discriminate|ovarray]]|]. split; [apply mmul_mI_l|].
  split.
  - eexists _, _. split; [opath|]. split; [reflexivity|]. unfold words_are.
    replace (split _) with [txt "5"; txt "-5"; txt "0"] by (vm_compute; reflexivity).
    constructor; [exact oF5|]. constructor; [exact oFm5|]. constructor; [exact oF0|constructor].
  - eexists. split; [opath|]. cbn [x_kids map eln el]. repeat (apply Forall2_cons; [eexists; split; [reflexivity|eapply words3; [vm_compute; reflexivity|ofl..]]|]). apply Forall2_nil.
Qed.
Lemma ex_C59_timestep : first_with (txt "time-step for ionic-motion") (ln "   POTIM = 0    time-step for ionic-motion" :: o_lattice) (ln "   POTIM = 0    time-step for ionic-motion") o_lattice /\
  timestep_line oE (ln "   POTIM = 0    time-step for ionic-motion") (Fin 0).
Proof.
  split; [exists []; split; [reflexivity|]; split; [constructor|apply contains_spec; vm_compute; reflexivity]|].
  exists (txt "0"). split; [vm_compute; reflexivity|exact oF0].
Qed.
