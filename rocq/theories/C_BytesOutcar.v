(** Theorems about OUTCAR files as bytes: C58-C61. *)
From Coq Require Import String ZArith NArith Reals Bool Arith List.
From Verif Require Import Base LinAlg M_Validate M_Text M_Poscar M_Outcar M_Bytes M_BytesOutcar S_Text S_Cut S_Bytes P_BytesOutcar P_BytesOutcar2 P_BytesOutcar3 P_Examples7.
Import ListNotations.
Local Open Scope nat_scope.

(** An OUTCAR that holds the UTF-8 of a text is read as that text, however the operating system
    divides it into blocks. *)
Theorem C58_bytes : forall E blocks t, utf8_text t (concat blocks) ->
  outcar_positions_file E blocks = plain (outcar_read_positions E t) /\
  outcar_positions_and_polarizability_file E blocks = plain (outcar_read_positions_and_polarizability E t).
Proof. exact f_outcar_bytes. Qed.
Print Assumptions C58_bytes.
Theorem C60_bytes : forall A (mk : list Z -> narr -> narr -> res A) E blocks t, utf8_text t (concat blocks) ->
  outcar_structure_and_polarizability_file E blocks = plain (outcar_read_structure_and_polarizability E t) /\
  outcar_ref_structure_file mk E blocks = plain (outcar_read_ref_structure mk E t).
Proof. exact f_outcar_structure_bytes. Qed.
Print Assumptions C60_bytes.
Theorem C61_bytes : forall E blocks t, utf8_text t (concat blocks) -> outcar_phonons_file E blocks = plain (outcar_read_phonons E t).
Proof. exact f_outcar_phonons_bytes. Qed.
Print Assumptions C61_bytes.
Theorem C59_bytes : forall E blocks t, utf8_text t (concat blocks) -> outcar_trajectory_file E blocks = plain (outcar_read_trajectory E t).
Proof. exact f_outcar_trajectory_bytes. Qed.
Print Assumptions C59_bytes.

(** C58: "an OUTCAR that cannot be read is reported as InvalidFileException" is false of a file
    in another encoding: every reader stops with UnboundLocalError. *)
Theorem C58_other_encoding_refuted : forall A (mk : list Z -> narr -> narr -> res A) E b blocks, hopeless b ->
  outcar_positions_file E (b :: blocks) = BErr UnboundLocalError /\
  outcar_positions_and_polarizability_file E (b :: blocks) = BErr UnboundLocalError /\
  outcar_structure_and_polarizability_file E (b :: blocks) = BErr UnboundLocalError /\
  outcar_ref_structure_file mk E (b :: blocks) = BErr UnboundLocalError /\
  outcar_phonons_file E (b :: blocks) = BErr UnboundLocalError /\
  outcar_trajectory_file E (b :: blocks) = BErr UnboundLocalError.
Proof. exact f_outcar_other. Qed.
Print Assumptions C58_other_encoding_refuted.
Example C58_other_encoding_nonvacuous : hopeless (o_bytes ++ [233; 10]%N).
Proof. exact o_hopeless. Qed.

(** C58, C60: once complete tables have been read, what the coming blocks of the file hold does
    not matter: it may be anything, even bytes that are no text. *)
Theorem C58_rest_of_file : forall E blocks rest t p n, utf8_text t (concat blocks) -> at_line_end t ->
  outcar_read_positions E t = Ok p -> na_shape p = [n; 3] -> outcar_positions_file E (blocks ++ rest) = BOk p.
Proof. exact f_prefix_positions. Qed.
Print Assumptions C58_rest_of_file.
Theorem C58_rest_of_file_polarizability : forall E blocks rest t p a n k, utf8_text t (concat blocks) -> at_line_end t ->
  outcar_read_positions_and_polarizability E t = Ok (p, a) -> na_shape p = [n; 3] -> na_shape a = [k; 3] ->
  outcar_positions_and_polarizability_file E (blocks ++ rest) = BOk (p, a).
Proof. exact f_prefix_polarizability. Qed.
Print Assumptions C58_rest_of_file_polarizability.
Theorem C60_rest_of_file : forall E blocks rest t l z p a m n k, utf8_text t (concat blocks) -> at_line_end t ->
  outcar_read_structure_and_polarizability E t = Ok (l, z, p, a) -> na_shape l = [m; 3] -> na_shape p = [n; 3] -> na_shape a = [k; 3] ->
  outcar_structure_and_polarizability_file E (blocks ++ rest) = BOk (l, z, p, a).
Proof. exact f_prefix_structure. Qed.
Print Assumptions C60_rest_of_file.
Example C58_rest_of_file_nonvacuous : utf8_text o_bytes (concat [o_bytes]) /\ at_line_end o_bytes /\
  exists p, outcar_read_positions oE o_bytes = Ok p /\ na_shape p = [2; 3].
Proof. exact ex_outcar_prefix. Qed.

(** C58: "the result depends on nothing but the bytes of the file" is false of files that are
    not UTF-8: it also depends on how the operating system divides them into blocks. *)
Theorem C58_blocks_refuted : exists E blocks blocks' p, concat blocks = concat blocks' /\
  outcar_positions_file E blocks = BOk p /\ outcar_positions_file E blocks' = BErr UnboundLocalError.
Proof. exact f_outcar_blocks_matter. Qed.
Print Assumptions C58_blocks_refuted.

(** C58: the exceptions of these readers, for files of any bytes. *)
Theorem C58_bytes_only_errors : forall E blocks e,
  outcar_positions_file E blocks = BErr e \/ outcar_positions_and_polarizability_file E blocks = BErr e \/
  outcar_structure_and_polarizability_file E blocks = BErr e ->
  (exists m, e = Plain (InvalidFileException m)) \/ e = Plain ValueError \/ e = UnicodeDecodeError \/ e = UnboundLocalError.
Proof. exact f_outcar_bytes_errors. Qed.
Print Assumptions C58_bytes_only_errors.
