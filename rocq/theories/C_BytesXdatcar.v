(** Theorems about XDATCAR files of any bytes: C53. *)
From Coq Require Import String ZArith NArith Reals Bool Arith List.
From Verif Require Import Base LinAlg M_Validate M_Text M_Poscar M_Bytes S_Text S_Bytes S_BytesOutcar P_BytesXdatcar P_BytesXdatcar2 P_Examples22.
Import ListNotations.

(** C53: whatever bytes a file holds and however they are divided into blocks, the
    configurations returned are those of a text the file begins with. *)
Theorem C53_sound : forall E blocks ps, read_trajectory_file E blocks = BOk ps ->
  exists t, begins t (concat blocks) /\ read_positions_ts E t = Ok ps.
Proof. exact f_C53_sound. Qed.
Print Assumptions C53_sound.

(** C53: what is raised, for files of any bytes. *)
Theorem C53_bytes_errors : forall E blocks e, read_trajectory_file E blocks = BErr e ->
  (exists m, e = Plain (InvalidFileException m)) \/ e = Plain ValueError \/ e = Plain IndexError \/ e = Plain LinAlgError \/
  e = UnicodeDecodeError \/ e = UnboundLocalError.
Proof. exact f_C53_bytes_errors. Qed.
Print Assumptions C53_bytes_errors.

Example C53_bytes_errors_nonvacuous :
  read_trajectory_file byE [x_head ++ txt "0 0 0" ++ [10%N] ++ txt "1 1 1" ++ [10%N]; [233; 10]%N] = BErr UnicodeDecodeError.
Proof. exact ex_C53_error. Qed.

(** C53: "a trajectory is returned only of a file that is text to its end" (C59_whole_file, for
    OUTCAR) is false here: two configurations, an empty line, and bytes that are not text. *)
Theorem C53_whole_file_refuted : exists E blocks, (forall u, ~ utf8_text u (concat blocks)) /\
  exists ps, read_trajectory_file E blocks = BOk ps /\ List.length ps = 2.
Proof. exact (ex_intro _ byE (ex_intro _ _ ex_C53_sound)). Qed.
Print Assumptions C53_whole_file_refuted.

(** C53: "a configuration that cannot be decoded is reported" is false: if the row before the
    undecodable bytes carries the text of one of the reader's own messages, the trajectory ends
    before the configuration, and nothing is raised. *)
Theorem C53_undecodable_refuted : exists E head row,
  row = (txt "0 0 0 missing first character in coordinate format:" ++ [10%N])%list /\
  (forall u, ~ utf8_text u (concat [head ++ row; [233; 10]%N])) /\
  exists ps, read_trajectory_file E [head ++ row; [233; 10]%N] = BOk ps /\ List.length ps = 1.
Proof. exact (ex_intro _ byE (ex_intro _ x_head (ex_intro _ x_odd (conj eq_refl f_C53_lost)))). Qed.
Print Assumptions C53_undecodable_refuted.
