(** Undecodable bytes within the modes of an OUTCAR *)
From Coq Require Import String ZArith NArith Reals Bool Arith List.
From Verif Require Import Base LinAlg M_Validate M_Text M_Poscar M_Outcar M_Bytes M_BytesOutcar S_Text S_Cut S_Bytes P_Bytes P_Bytes2 P_BytesOutcar P_BytesOutcar2 P_BytesOutcar3 P_Examples7.
Import ListNotations.

Definition q_lines (k : nat) : file := q_head ++ o_lattice ++ q_pos ++ q_eig :: firstn k q_modes.
Lemma f_phonons_undecodable : exists E before mode heading,
  contains (txt "Eigenvectors and eigenvalues of the dynamical matrix") before = true /\ at_line_end before /\ at_line_end mode /\ at_line_end heading /\
  utf8_text (before ++ mode ++ heading) (before ++ mode ++ heading) /\
  outcar_phonons_file E [before ++ mode; [233; 10]%N] = BErr UnboundLocalError /\
  outcar_phonons_file E [before ++ mode ++ heading; [233; 10]%N] = BErr (Plain (InvalidFileException (txt "eigenvector could not be parsed: " ++ heading))).
Proof.
  exists oE, (concat (q_lines 0)), (concat (firstn 1 q_modes)), (concat (firstn 1 (skipn 1 q_modes))).
  split; [vm_compute; reflexivity|]. split; [exists (removelast (concat (q_lines 0))); vm_compute; reflexivity|].
  split; [exists (removelast (concat (firstn 1 q_modes))); vm_compute; reflexivity|]. split; [exists (removelast (concat (firstn 1 (skipn 1 q_modes)))); vm_compute; reflexivity|].
  split; [apply decode_iff; vm_compute; reflexivity|]. split; vm_compute; reflexivity.
Qed.
