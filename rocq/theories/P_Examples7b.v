(** Concrete files that meet the hypotheses of the error theorems of C59, C61, C62. *)
From Coq Require Import String Ascii ZArith NArith QArith Qreals Reals Bool Arith List Lia Lra Sorted.
From Verif Require Import Base LinAlg Constants M_Validate M_StructUtils M_Text M_Poscar M_Outcar M_Vasprun
  S_Text S_Lattice S_Outcar S_Vasprun
  P_Text P_Outcar P_Outcar2 P_Outcar3 P_Vasprun P_Outcar4 P_Examples7.
Import ListNotations.
Local Open Scope nat_scope.

Definition s_word : file := ln "   POTIM in fs    time-step for ionic-motion" :: o_lattice.
Definition s_flat : file := map ln [" Write flags"; "      direct lattice vectors                 reciprocal lattice vectors"; " 1 0 0   1 0 0"; " 0 1 0   0 1 0"; " 0 0 0   0 0 1"]%string.
Definition s_singular : M3 := mkM (mkV 1 0 0) (mkV 0 1 0) (mkV 0 0 0).
Definition s_done : file := o_block " (ML)" ["  1 0 0   0 0 0"; " 0 1 0  0 0 0"]%string.
Definition s_next : text := hd [] (o_block "" []).
Definition s_ml : text := hd [] (o_block " (ML)" []).
Definition s_rest : file := map ln [" ----"; " 0 0 0  0 0 0"]%string.
Ltac ohere := exists []; split; [reflexivity|]; split; [constructor|apply contains_spec; vm_compute; reflexivity].
Lemma nowhere_check m l : forallb (fun x => negb (contains m x)) l = true -> nowhere m l.
Proof. intros H. apply Forall_forall. intros x Hx. rewrite forallb_forall in H. specialize (H x Hx). apply contains_false. destruct (contains _ x); [discriminate|reflexivity]. Qed.
Lemma ex_C59_errors :
  (first_with (txt "time-step for ionic-motion") s_word (hd [] s_word) (tl s_word) /\
   nth_error (split (hd [] s_word)) 2 = Some (txt "fs") /\ float_of (e_fl oE) (txt "fs") = None) /\
  (lattice_block oE s_flat (matrix s_singular) [] /\ mdet s_singular = 0%R) /\
  (blocks_in oE 2 s_done [(true, [mkV 1 0 0; mkV 0 1 0])] /\ occurs block_marker s_next /\ ~ occurs (txt "(ML)") s_next /\
   occurs block_marker s_ml /\ occurs (txt "(ML)") s_ml /\ rows3_at oE (tl s_rest) [mkV 0 0 0] /\ nowhere block_marker s_rest /\
   steps_are [(true, [mkV 1 0 0; mkV 0 1 0])] [[mkV 1 0 0; mkV 0 1 0]]).
Proof.
  split; [split; [ohere|split; vm_compute; reflexivity]|]. split; [split|].
  - eexists _, _, _, (map ln [" 1 0 0   1 0 0"; " 0 1 0   0 1 0"; " 0 0 0   0 0 1"]%string). split; [ohere|]. split; [ohere|].
    apply (rows3_table oE (map ln [" 1 0 0   1 0 0"; " 0 1 0   0 1 0"; " 0 0 0   0 0 1"]%string) [mkV 1 0 0; mkV 0 1 0; mkV 0 0 0]%R []); [discriminate|]. unfold rows3_at. orows.
  - unfold mdet, s_singular, vdot, vcross. cbn. lra.
  - split; [|split; [|split; [|split; [|split; [|split; [|split]]]]]].
    + apply blocks_cons with (l := s_ml) (sep := ln " ----") (body := map ln ["  1 0 0   0 0 0"; " 0 1 0  0 0 0"]%string) (f' := []).
      * ohere.
      * rewrite <- contains_spec. vm_compute. split; reflexivity.
      * apply contains_false. vm_compute. reflexivity.
      * apply nowhere_check. vm_compute. reflexivity.
      * unfold rows3_at. orows.
      * reflexivity.
      * constructor. constructor.
    + apply contains_spec. vm_compute. reflexivity.
    + apply contains_false. vm_compute. reflexivity.
    + apply contains_spec. vm_compute. reflexivity.
    + apply contains_spec. vm_compute. reflexivity.
    + unfold rows3_at, s_rest. cbn [tl map]. orows.
    + apply nowhere_check. vm_compute. reflexivity.
    + apply (steps_exist [(true, [mkV 1 0 0; mkV 0 1 0])]).
Qed.

Definition q_after : file := q_mode "   2 f/i=    5 THz   0 2PiTHz  5 cm-1    0 meV" " 0 0 0  0 1 0" ++ q_mode "   3 f  =    1 THz   0 2PiTHz  1 cm-1    0 meV" " 0 0 0  0 0 1".
Definition q_bad : file := q_mode "   2 f/i=    5 THz   0 2PiTHz  ***** cm-1    0 meV" " 0 0 0  0 1 0".
Lemma ex_C61_errors :
  modes_then oE 1 q_modes [(Fin 5, [mkV 1 0 0])] q_after /\
  first_with (txt "cm-1") q_after (hd [] q_after) (tl q_after) /\ occurs (txt "f/i") (hd [] q_after) /\
  first_with (txt "cm-1") q_bad (hd [] q_bad) (tl q_bad) /\ occurs (txt "f/i") (hd [] q_bad) /\
  nth_error (split (hd [] q_bad)) 6 = Some (txt "*****") /\ float_of (e_fl oE) (txt "*****") = None.
Proof.
  split; [|split; [ohere|split; [apply contains_spec; vm_compute; reflexivity|split; [ohere|split; [apply contains_spec; vm_compute; reflexivity|split; vm_compute; reflexivity]]]]].
  apply then_cons with (l := hd [] q_modes) (body := firstn 2 (tl q_modes)) (f' := skipn 2 (tl q_modes)).
  - ohere.
  - right. split; [apply contains_false; vm_compute; reflexivity|]. exists (txt "5"). split; [vm_compute; reflexivity|exact oF5].
  - apply vectors_skip; [apply contains_spec; vm_compute; reflexivity| |discriminate]. apply vectors_row; [apply contains_false; vm_compute; reflexivity| |constructor].
    exists (txt "1"), (txt "0"), (txt "0"). split; [vm_compute; reflexivity|]. cbn [vx vy vz]. auto using oF0, oF1.
  - reflexivity.
  - apply then_nil.
Qed.

(** Two steps of one and two atoms; a species that is no element; a row without columns *)
Definition w_root : xml := el "modeling"
  [ el "parameters" [eln "separator" "ionic" [Elem (txt "i") [(txt "name", txt "POTIM")] (Some (txt " 1 ")) []]];
    el "structure" [eln "varray" "positions" [vrow "0 1 5"]];
    el "structure" [eln "varray" "positions" [vrow "0 1 5"; vrow "5 0 1"]] ].
Definition v_unknown : xml := el "modeling" [el "atominfo" [el "array" [el "set" [el "rc" [vrow "Xx"]]]]].
Definition v_empty : xml := el "modeling" [el "atominfo" [el "array" [el "set" [el "rc" []]]]].
Lemma ex_C62_errors :
  (exists structs fs vs vs', unnamed_structures w_root structs /\
    Forall2 (fun s vs => exists v, first_at s [tag "varray"] v /\ varray3 oE v vs) structs fs /\
    Forall (fun vs => vs <> []) fs /\ In vs fs /\ In vs' fs /\ List.length vs <> List.length vs' /\ timestep_at oE w_root (Fin 1)) /\
  vasprun_read_structure_and_polarizability oE (fun _ => Tree v_unknown) [] = Err KeyError /\
  vasprun_read_structure_and_polarizability oE (fun _ => Tree v_empty) [] = Err IndexError /\
  vasprun_read_positions oE (fun _ => ParseError) [] = Err (InvalidFileException (txt "root xml element could not be found")).
Proof.
  split; [|split; [vm_compute; reflexivity|split; vm_compute; reflexivity]].
  exists [el "structure" [eln "varray" "positions" [vrow "0 1 5"]]; el "structure" [eln "varray" "positions" [vrow "0 1 5"; vrow "5 0 1"]]],
    [[mkV 0 1 5]; [mkV 0 1 5; mkV 5 0 1]]%R, [mkV 0 1 5]%R, [mkV 0 1 5; mkV 5 0 1]%R.
  split; [pose proof (structures_ok w_root) as H; vm_compute in H; exact H|]. split.
  { repeat (apply Forall2_cons; [eexists; split; [opath|ovarray]|]). apply Forall2_nil. }
  split; [repeat constructor; discriminate|]. split; [left; reflexivity|]. split; [right; left; reflexivity|]. split; [discriminate|].
  eexists _, _. split; [opath|]. split; [reflexivity|]. exact oF1.
Qed.
