(** Theorems about the generic readers on files of any bytes: C63. *)
From Coq Require Import String ZArith NArith Reals Bool Arith List.
From Verif Require Import Base LinAlg M_Validate M_Text M_Poscar M_Outcar M_Vasprun M_Files M_Dataset M_Generic M_Bytes M_BytesOutcar M_GenericBytes
  S_Text S_Cut S_Bytes S_BytesOutcar S_GenericBytes P_BytesOutcar3 P_GenericBytes P_GenericBytes2 P_Examples7.
Import ListNotations.
Local Open Scope string_scope.

(** C63: where the bytes of a file are the UTF-8 of a text, however the operating system
    divides them, every generic reader does what it does for that text (C63_phonons and the
    others say what that is). *)
Theorem C63_bytes : forall E parse early (f : fs) (bf : bfs) p, holds (f p) (bf p) -> forall A (mk : list Z -> narr -> narr -> res A) fmt,
  byte_read_phonons E parse early bf p fmt = BG (generic_read_phonons E parse f p fmt) /\
  byte_read_trajectory E parse early bf p fmt = BG (generic_read_trajectory E parse f p fmt) /\
  byte_read_positions_and_polarizability E parse early bf p fmt = BG (generic_read_positions_and_polarizability E parse f p fmt) /\
  byte_read_structure_and_polarizability E parse early bf p fmt = BG (generic_read_structure_and_polarizability E parse f p fmt) /\
  byte_read_positions E parse early bf p fmt = BG (generic_read_positions E parse f p fmt) /\
  byte_read_ref_structure E parse early mk bf p fmt = BG (generic_read_ref_structure E parse mk f p fmt).
Proof. exact f_C63_bytes. Qed.
Print Assumptions C63_bytes.
Theorem C63_dataset_bytes : forall E parse early (f : fs) (bf : bfs) ps torch cast fmt, Forall (fun p => holds (f p) (bf p)) ps ->
  byte_read_dataset E parse early torch cast bf ps fmt = BG (generic_read_dataset E parse torch cast f ps fmt).
Proof. exact f_C63_dataset_bytes. Qed.
Print Assumptions C63_dataset_bytes.

Example C63_bytes_nonvacuous : holds (Present o_bytes) (BPresent [o_bytes]) /\
  exists a, forall parse early p, byte_read_positions oE parse early (fun _ => BPresent [o_bytes]) p "outcar" = BG (GOk a).
Proof. exact ex_C63_bytes. Qed.

(** C63: for any bytes, the data a generic reader returns are those of a text the file begins
    with; a trajectory is returned only of a file that is text to its end. *)
Theorem C63_bytes_sound : forall (bf : bfs) p blocks, bf p = BPresent blocks -> forall A (mk : list Z -> narr -> narr -> res A) fmt,
  exists t, begins t (concat blocks) /\ forall E parse early f, f p = Present t ->
  backed (byte_read_phonons E parse early bf p fmt) (generic_read_phonons E parse f p fmt) /\
  backed (byte_read_positions_and_polarizability E parse early bf p fmt) (generic_read_positions_and_polarizability E parse f p fmt) /\
  backed (byte_read_structure_and_polarizability E parse early bf p fmt) (generic_read_structure_and_polarizability E parse f p fmt) /\
  backed (byte_read_positions E parse early bf p fmt) (generic_read_positions E parse f p fmt) /\
  backed (byte_read_ref_structure E parse early mk bf p fmt) (generic_read_ref_structure E parse mk f p fmt).
Proof. exact f_C63_backed. Qed.
Print Assumptions C63_bytes_sound.
Theorem C63_bytes_trajectory : forall (bf : bfs) p blocks, bf p = BPresent blocks -> forall E parse early fmt r,
  byte_read_trajectory E parse early bf p fmt = BG (GOk r) ->
  exists t, utf8_text t (concat blocks) /\ forall f, f p = Present t -> generic_read_trajectory E parse f p fmt = GOk r.
Proof. exact f_C63_trajectory_whole. Qed.
Print Assumptions C63_bytes_trajectory.

(** a file that is not text, and whose positions are returned all the same *)
Example C63_bytes_sound_nonvacuous : (forall t, ~ utf8_text t (concat [o_bytes; [233; 10]%N])) /\
  exists a, forall parse early p, byte_read_positions oE parse early (fun _ => BPresent [o_bytes; [233; 10]%N]) p "outcar" = BG (GOk a).
Proof. exact ex_C63_sound. Qed.

(** C63: encoding errors are raised for files that are not UTF-8, and for no others; in a
    dataset, one of the files is not. *)
Theorem C63_bytes_errors : forall (bf : bfs) p blocks, bf p = BPresent blocks -> forall A (mk : list Z -> narr -> narr -> res A) E parse early fmt e,
  byte_read_phonons E parse early bf p fmt = Coding e \/ byte_read_trajectory E parse early bf p fmt = Coding e \/
  byte_read_positions_and_polarizability E parse early bf p fmt = Coding e \/ byte_read_structure_and_polarizability E parse early bf p fmt = Coding e \/
  byte_read_positions E parse early bf p fmt = Coding e \/ byte_read_ref_structure E parse early mk bf p fmt = Coding e ->
  (e = UnicodeDecodeError \/ e = UnboundLocalError) /\ forall t, ~ utf8_text t (concat blocks).
Proof. exact f_C63_coding. Qed.
Print Assumptions C63_bytes_errors.
Theorem C63_dataset_bytes_errors : forall E parse early (bf : bfs) ps torch cast fmt e, byte_read_dataset E parse early torch cast bf ps fmt = Coding e ->
  (e = UnicodeDecodeError \/ e = UnboundLocalError) /\ exists p blocks, In p ps /\ bf p = BPresent blocks /\ forall t, ~ utf8_text t (concat blocks).
Proof. exact f_C63_dataset_coding. Qed.
Print Assumptions C63_dataset_bytes_errors.

(** C63: "a file that cannot be decoded is reported as InvalidFileException" is false: where no
    continuation of the first block is text, the error is Python's UnboundLocalError, or for
    vasprun.xml UnicodeDecodeError. *)
Theorem C63_undecodable_refuted : forall (bf : bfs) p b blocks A (mk : list Z -> narr -> narr -> res A) E parse early, bf p = BPresent (b :: blocks) -> hopeless b ->
  byte_read_phonons E parse early bf p "outcar" = Coding UnboundLocalError /\
  byte_read_trajectory E parse early bf p "outcar" = Coding UnboundLocalError /\
  byte_read_positions_and_polarizability E parse early bf p "outcar" = Coding UnboundLocalError /\
  byte_read_structure_and_polarizability E parse early bf p "outcar" = Coding UnboundLocalError /\
  (forall fmt, In fmt ["poscar"; "outcar"; "xdatcar"] ->
     byte_read_positions E parse early bf p fmt = Coding UnboundLocalError /\ byte_read_ref_structure E parse early mk bf p fmt = Coding UnboundLocalError) /\
  (early (b :: blocks) = false ->
     byte_read_phonons E parse early bf p "vasprun.xml" = Coding UnicodeDecodeError /\ byte_read_trajectory E parse early bf p "vasprun.xml" = Coding UnicodeDecodeError /\
     byte_read_positions_and_polarizability E parse early bf p "vasprun.xml" = Coding UnicodeDecodeError /\ byte_read_structure_and_polarizability E parse early bf p "vasprun.xml" = Coding UnicodeDecodeError /\
     byte_read_positions E parse early bf p "vasprun.xml" = Coding UnicodeDecodeError /\ byte_read_ref_structure E parse early mk bf p "vasprun.xml" = Coding UnicodeDecodeError).
Proof. exact f_C63_other. Qed.
Print Assumptions C63_undecodable_refuted.

Example C63_undecodable_nonvacuous : hopeless (o_bytes ++ [233; 10]%N).
Proof. exact o_hopeless. Qed.
