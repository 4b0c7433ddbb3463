(** Theorems about structure and trajectory files as bytes: C46, C48, C50, C52-C54. *)
From Coq Require Import String ZArith NArith Reals Bool Arith List.
From Verif Require Import Base LinAlg M_Validate M_Text M_Poscar M_Files M_Bytes S_Text S_Files S_Cut S_Bytes P_Bytes P_Bytes2 P_Bytes3 P_Examples5 P_Examples22.
Import ListNotations.
Local Open Scope N_scope.

(** The encoder and the decoder of the model are UTF-8 as the Unicode Standard tells it. *)
Theorem C46_codec : forall t bs,
  (utf8_encode t = Some bs <-> utf8_text t bs) /\ (utf8_decode bs = Some (t, []) <-> utf8_text t bs).
Proof. exact f_C46_codec. Qed.
Print Assumptions C46_codec.

Example C46_codec_nonvacuous :
  utf8_encode cafe = Some cafe8 /\ utf8_decode cafe8 = Some (cafe, []) /\ ~ utf8_text [55296] [237; 160; 128].
Proof. exact ex_C46_codec. Qed.

(** C50, C53: a file holding the UTF-8 of a text is read as that text, however the operating
    system divides it into blocks: between the bytes of one character, or of one line ending. *)
Theorem C50_bytes : forall E blocks t, utf8_text t (concat blocks) ->
  read_structure_file E blocks = plain (read_structure E t) /\
  read_positions_file E blocks = plain (read_positions E t).
Proof. exact f_C50_bytes. Qed.
Print Assumptions C50_bytes.
Theorem C53_bytes : forall E blocks t, utf8_text t (concat blocks) ->
  read_trajectory_file E blocks = plain (read_positions_ts E t).
Proof. exact f_C53_bytes. Qed.
Print Assumptions C53_bytes.

Example C50_bytes_nonvacuous :
  utf8_text (cafe ++ [13; 10]) (concat [[99; 97; 102; 195]; [169; 13]; [10]]) /\
  read_structure_file byE [[99; 97; 102; 195]; [169; 13]; [10]] =
    BErr (Plain (InvalidFileException (txt "scale factor could not be parsed: "))).
Proof. exact ex_C50_bytes. Qed.

(** C50: "a file that cannot be read is reported as InvalidFileException" is false of a file in
    another encoding: whatever it holds, the readers stop with UnboundLocalError. *)
Theorem C50_other_encoding_refuted : forall E b blocks, hopeless b ->
  read_structure_file E (b :: blocks) = BErr UnboundLocalError /\
  read_positions_file E (b :: blocks) = BErr UnboundLocalError /\
  read_trajectory_file E (b :: blocks) = BErr UnboundLocalError.
Proof. exact f_C50_other_encoding. Qed.
Print Assumptions C50_other_encoding_refuted.

Example C50_other_encoding_nonvacuous :
  hopeless [99; 97; 102; 233; 10] /\ read_structure_file byE [[99; 97; 102; 233; 10]] = BErr UnboundLocalError.
Proof. exact ex_latin1. Qed.

(** C48: whatever the label, what is written can be encoded: no write ends with
    UnicodeEncodeError. *)
Theorem C48_encodable : forall E lattice numbers label, sound_printable E ->
  (forall positions pieces, structure_pieces E lattice numbers positions label = Ok pieces ->
    exists bytes, file_bytes pieces = Some bytes /\ utf8_text (concat pieces) bytes) /\
  (forall pts pieces, trajectory_pieces E lattice numbers pts label = Ok pieces ->
    exists bytes, file_bytes pieces = Some bytes /\ utf8_text (concat pieces) bytes).
Proof. exact f_C48_encodable. Qed.
Print Assumptions C48_encodable.

Example C48_encodable_nonvacuous :
  ~ (exists bytes, utf8_text [56507] bytes) /\
  exists pieces bytes, structure_pieces byE exl exn exp [56507] = Ok pieces /\ file_bytes pieces = Some bytes.
Proof. exact ex_C48_encodable. Qed.

(** C46, C52: the round trips, through the bytes on the disk. *)
Theorem C46_bytes : forall E lattice numbers positions label pieces,
  sound_printable E -> e_fl E 1%R = Fin 1 -> narr_wf lattice -> narr_wf positions ->
  structure_pieces E lattice numbers positions label = Ok pieces ->
  exists bytes lat pos, file_bytes pieces = Some bytes /\
    (forall blocks, concat blocks = bytes -> read_structure_file E blocks = BOk (lat, numbers, pos)) /\
    List.length lat = 3%nat /\ Forall2 (reread (e_fl E)) (na_data lattice) (entries lat) /\
    List.length pos = List.length numbers /\ Forall2 (reread (e_fl E)) (na_data positions) (entries pos).
Proof. exact f_C46_bytes. Qed.
Print Assumptions C46_bytes.

Example C46_bytes_nonvacuous :
  exists pieces bytes lat pos, structure_pieces byE exl exn exp cafe = Ok pieces /\ file_bytes pieces = Some bytes /\
  firstn 5 bytes = cafe8 /\ read_structure_file byE (map (fun b => [b]) bytes) = BOk (lat, exn, pos).
Proof. exact ex_C46_bytes. Qed.

Theorem C52_bytes : forall E lattice numbers pts label pieces,
  sound_printable E -> e_fl E 1%R = Fin 1 -> narr_wf lattice -> narr_wf pts ->
  trajectory_pieces E lattice numbers pts label = Ok pieces ->
  exists bytes ps, file_bytes pieces = Some bytes /\
    (forall blocks, concat blocks = bytes -> read_trajectory_file E blocks = BOk ps) /\
    na_shape pts = [List.length ps; List.length numbers; 3]%nat /\
    Forall (fun p => List.length p = List.length numbers) ps /\
    Forall2 (reread (e_fl E)) (na_data pts) (flat_map entries ps).
Proof. exact f_C52_bytes. Qed.
Print Assumptions C52_bytes.

Example C52_bytes_nonvacuous :
  exists pieces bytes ps, trajectory_pieces byE exl exn ext cafe = Ok pieces /\ file_bytes pieces = Some bytes /\
  read_trajectory_file byE [bytes] = BOk ps /\ List.length ps = 2%nat.
Proof. exact ex_C52_bytes. Qed.

(** C54: interrupted after any number of bytes, even between the bytes of a character.  Reading
    fails with InvalidFileException, or, if even the first line is incomplete, perhaps with
    UnboundLocalError; or gives what was to be written except perhaps the last number. *)
Theorem C54_cut_structure_bytes : forall E lattice numbers positions label pieces bytes cut rest blocks,
  e_fl E 1%R = Fin 1 -> narr_wf lattice -> narr_wf positions ->
  structure_pieces E lattice numbers positions label = Ok pieces ->
  file_bytes pieces = Some bytes -> bytes = (cut ++ rest)%list -> concat blocks = cut ->
  (exists m, read_structure_file E blocks = BErr (Plain (InvalidFileException m))) \/
  (~ In 10 cut /\ read_structure_file E blocks = BErr UnboundLocalError) \/
  exists lat pos,
    read_structure_file E blocks = BOk (lat, numbers, pos) /\
    List.length lat = 3%nat /\ Forall2 (reread (e_fl E)) (na_data lattice) (entries lat) /\
    List.length pos = List.length numbers /\
    (Forall2 (reread (e_fl E)) (na_data positions) (entries pos) \/
     (~ at_line_end cut /\ reread_but_last (e_fl E) (na_data positions) (entries pos))).
Proof. exact f_C54_cut_structure_bytes. Qed.
Print Assumptions C54_cut_structure_bytes.

Theorem C54_cut_trajectory_bytes : forall E lattice numbers positions label pieces bytes cut rest blocks s,
  e_fl E 1%R = Fin 1 -> narr_wf lattice -> narr_wf positions -> na_shape positions = [s; List.length numbers; 3%nat] ->
  trajectory_pieces E lattice numbers positions label = Ok pieces ->
  file_bytes pieces = Some bytes -> bytes = (cut ++ rest)%list -> concat blocks = cut ->
  (exists m, read_trajectory_file E blocks = BErr (Plain (InvalidFileException m))) \/
  (~ In 10 cut /\ read_trajectory_file E blocks = BErr UnboundLocalError) \/
  exists ps,
    read_trajectory_file E blocks = BOk ps /\ (List.length ps <= s)%nat /\
    Forall (fun q => List.length q = List.length numbers) ps /\
    let written := firstn (List.length ps * (List.length numbers * 3)) (na_data positions) in
    (Forall2 (reread (e_fl E)) written (flat_map entries ps) \/
     (~ at_line_end cut /\ reread_but_last (e_fl E) written (flat_map entries ps))).
Proof. exact f_C54_cut_trajectory_bytes. Qed.
Print Assumptions C54_cut_trajectory_bytes.

Example C54_bytes_nonvacuous :
  exists pieces bytes rest, structure_pieces byE exl exn exp cafe = Ok pieces /\ file_bytes pieces = Some bytes /\
  bytes = ([99; 97; 102; 195] ++ rest)%list /\ read_structure_file byE [[99; 97; 102; 195]] = BErr UnboundLocalError.
Proof. exact ex_C54_bytes. Qed.
