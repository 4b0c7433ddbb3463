(** Theorems about OUTCAR files of any bytes: C58-C61. *)
From Coq Require Import String ZArith NArith Reals Bool Arith List.
From Verif Require Import Base LinAlg M_Validate M_Text M_Poscar M_Outcar M_Bytes M_BytesOutcar S_Text S_Cut S_Bytes S_BytesOutcar P_BytesOutcar3 P_BytesOutcar5 P_BytesOutcar6 P_Examples7.
Import ListNotations.
Local Open Scope nat_scope.

(** C58, C60, C61: whatever bytes a file holds and however they are divided into blocks, what
    a reader returns is what it returns for a text the file begins with: no number is ever
    made of bytes that are not text. *)
Theorem C58_sound : forall A (mk : list Z -> narr -> narr -> res A) blocks, exists t, begins t (concat blocks) /\ forall E,
  (forall p, outcar_positions_file E blocks = BOk p -> outcar_read_positions E t = Ok p) /\
  (forall p, outcar_positions_and_polarizability_file E blocks = BOk p -> outcar_read_positions_and_polarizability E t = Ok p) /\
  (forall p, outcar_structure_and_polarizability_file E blocks = BOk p -> outcar_read_structure_and_polarizability E t = Ok p) /\
  (forall p, outcar_ref_structure_file mk E blocks = BOk p -> outcar_read_ref_structure mk E t = Ok p) /\
  (forall p, outcar_phonons_file E blocks = BOk p -> outcar_read_phonons E t = Ok p).
Proof. exact f_outcar_sound. Qed.
Print Assumptions C58_sound.

(** C58-C61: a file that is not UTF-8 is refused with an encoding error or
    InvalidFileException, unless the text it begins with settles the outcome: then it is read as
    it would be if that text went on in any other way, so nothing is made up for what cannot be
    decoded. *)
Theorem C58_undecodable : forall A (mk : list Z -> narr -> narr -> res A) blocks, (forall t, ~ utf8_text t (concat blocks)) ->
  exists t, begins t (concat blocks) /\ forall E u bytes, utf8_text u bytes ->
    usual (outcar_positions_file E blocks) (outcar_read_positions E (t ++ u)) /\
    usual (outcar_positions_and_polarizability_file E blocks) (outcar_read_positions_and_polarizability E (t ++ u)) /\
    usual (outcar_structure_and_polarizability_file E blocks) (outcar_read_structure_and_polarizability E (t ++ u)) /\
    usual (outcar_ref_structure_file mk E blocks) (outcar_read_ref_structure mk E (t ++ u)) /\
    usual (outcar_phonons_file E blocks) (outcar_read_phonons E (t ++ u)) /\
    usual (outcar_trajectory_file E blocks) (outcar_read_trajectory E (t ++ u)) /\
    forall r, outcar_trajectory_file E blocks <> BOk r.
Proof. exact f_outcar_undecodable. Qed.
Print Assumptions C58_undecodable.

Example C58_undecodable_nonvacuous : forall t, ~ utf8_text t (concat [o_bytes; [233; 10]%N]).
Proof. intros t. pose proof (o_hopeless [] t) as H. cbn [concat]. rewrite !app_nil_r in *. exact H. Qed.

(** C59: a trajectory is returned only of files that are text to their end. *)
Theorem C59_whole_file : forall E blocks r, outcar_trajectory_file E blocks = BOk r ->
  exists t, utf8_text t (concat blocks) /\ outcar_read_trajectory E t = Ok r.
Proof. exact f_trajectory_whole. Qed.
Print Assumptions C59_whole_file.

(** C59, C61: the exceptions of these readers, for files of any bytes. *)
Theorem C59_bytes_only_errors : forall E blocks e, outcar_trajectory_file E blocks = BErr e ->
  (exists m, e = Plain (InvalidFileException m)) \/ e = Plain ValueError \/ e = Plain LinAlgError \/ e = UnicodeDecodeError \/ e = UnboundLocalError.
Proof. exact f_trajectory_bytes_errors. Qed.
Print Assumptions C59_bytes_only_errors.
Theorem C61_bytes_only_errors : forall E blocks e, outcar_phonons_file E blocks = BErr e ->
  (exists m, e = Plain (InvalidFileException m)) \/ e = Plain ValueError \/ e = UnicodeDecodeError \/ e = UnboundLocalError.
Proof. exact f_phonons_bytes_errors. Qed.
Print Assumptions C61_bytes_only_errors.

(** C61: "undecodable bytes among the modes are reported as InvalidFileException" is false
    directly below the line of a mode; below the heading of its eigenvector it is true. *)
Theorem C61_undecodable_refuted : exists E before mode heading,
  contains (txt "Eigenvectors and eigenvalues of the dynamical matrix") before = true /\ at_line_end before /\ at_line_end mode /\ at_line_end heading /\
  utf8_text (before ++ mode ++ heading) (before ++ mode ++ heading) /\
  outcar_phonons_file E [before ++ mode; [233; 10]%N] = BErr UnboundLocalError /\
  outcar_phonons_file E [before ++ mode ++ heading; [233; 10]%N] = BErr (Plain (InvalidFileException (txt "eigenvector could not be parsed: " ++ heading))).
Proof. exact f_phonons_undecodable. Qed.
Print Assumptions C61_undecodable_refuted.
