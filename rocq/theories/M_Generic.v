(** Model of ramannoodle/io/generic.py: the readers (the writers are in M_Files.v). *)
From Coq Require Import String ZArith NArith Reals Bool Arith List.
From Verif Require Import Base LinAlg M_Validate M_Text M_Poscar M_Outcar M_Vasprun M_Files M_Dataset.
Import ListNotations.
Local Open Scope nat_scope.
Local Open Scope string_scope.

(** What a generic reader raises.  Both of the first are ValueErrors; the last is an exception of
    the specific reader that passes through. *)
Inductive gerr :=
| UnsupportedFormat (fmt : string)   (* generic.py:91, 123, 155, 189, 222, 254, 283 *)
| XdatcarTrajectory                  (* generic.py:119-122 *)
| Passed (e : exn).
Inductive gres (A : Type) := GOk (a : A) | GErr (g : gerr).
Arguments GOk {A}. Arguments GErr {A}.

(** [with open(filepath, "r")]: reading the file at [p].  The content is text here; files of
    any bytes are in M_GenericBytes.v. *)
Definition from_file {A} (f : fs) (read : text -> res A) (p : path) : res A :=
  match f p with
  | Absent => Err FileNotFoundError
  | Blocked e => Err e
  | Present content => read content
  end.
(** [_TABLE[file_format](filepath)] within [try ... except KeyError] *)
Definition lookup {A} (table : list (string * A)) (fmt : string) : option A :=
  match find (fun e => String.eqb (fst e) fmt) table with Some e => Some (snd e) | None => None end.
Definition dispatch {A P} (table : list (string * (P -> res A))) (fmt : string) (p : P) (on_key : gerr) : gres A :=
  match lookup table fmt with
  | None => GErr on_key
  | Some read =>
      match read p with
      | Ok a => GOk a
      | Err KeyError => GErr on_key
      | Err e => GErr (Passed e)
      end
  end.

Section Readers.
(** [E]: float parsing; [parse]: the XML parser; [mk]: the constructor of ReferenceStructure *)
Context (E : env) (parse : text -> parsed).

(** poscar.py:123-149 *)
Definition poscar_read_positions (content : text) : res narr := rmap narr_of_rows (read_positions E content).
(** poscar.py:177-201 [read_ref_structure] *)
Definition poscar_read_ref_structure {A} (mk : list Z -> narr -> narr -> res A) (content : text) : res A :=
  let* (lattice, numbers, positions) := read_structure E content in
  mk numbers (narr_of_rows lattice) (narr_of_rows positions).

(** generic.py:29-32 [_PHONON_READERS], 68-91 [read_phonons] *)
Definition phonon_readers (f : fs) : list (string * (path -> res nphonons)) :=
  [("outcar", from_file f (outcar_read_phonons E));
   ("vasprun.xml", from_file f (vasprun_read_phonons E parse))].
Definition generic_read_phonons (f : fs) (p : path) (fmt : string) : gres nphonons :=
  dispatch (phonon_readers f) fmt p (UnsupportedFormat fmt).
(** generic.py:33-36 [_TRAJECTORY_READERS], 94-123 [read_trajectory] *)
Definition trajectory_readers (f : fs) : list (string * (path -> res ntrajectory)) :=
  [("outcar", from_file f (outcar_read_trajectory E));
   ("vasprun.xml", from_file f (vasprun_read_trajectory E parse))].
Definition generic_read_trajectory (f : fs) (p : path) (fmt : string) : gres ntrajectory :=
  dispatch (trajectory_readers f) fmt p
    (if String.eqb fmt "xdatcar" then XdatcarTrajectory else UnsupportedFormat fmt).
(** generic.py:37-40, 126-155 [read_positions_and_polarizability] *)
Definition position_polarizability_readers (f : fs) : list (string * (path -> res (narr * narr))) :=
  [("outcar", from_file f (outcar_read_positions_and_polarizability E));
   ("vasprun.xml", from_file f (vasprun_read_positions_and_polarizability E parse))].
Definition generic_read_positions_and_polarizability (f : fs) (p : path) (fmt : string) : gres (narr * narr) :=
  dispatch (position_polarizability_readers f) fmt p (UnsupportedFormat fmt).
(** generic.py:41-44, 158-189 [read_structure_and_polarizability] *)
Definition structure_polarizability_readers (f : fs) : list (string * (path -> res (narr * list Z * narr * narr))) :=
  [("outcar", from_file f (outcar_read_structure_and_polarizability E));
   ("vasprun.xml", from_file f (vasprun_read_structure_and_polarizability E parse))].
Definition generic_read_structure_and_polarizability (f : fs) (p : path) (fmt : string)
  : gres (narr * list Z * narr * narr) :=
  dispatch (structure_polarizability_readers f) fmt p (UnsupportedFormat fmt).
(** generic.py:45-48, 192-222 [read_polarizability_dataset]; outcar.py:404-426 and
    vasprun.py:195-217.  [torch]: PyTorch is installed. *)
Definition dataset_readers (torch : bool) (cast : num -> num) (f : fs) : list (string * (list path -> res dataset)) :=
  [("outcar", read_dataset (from_file f (outcar_read_structure_and_polarizability E)) torch cast);
   ("vasprun.xml", read_dataset (from_file f (vasprun_read_structure_and_polarizability E parse)) torch cast)].
Definition generic_read_dataset (torch : bool) (cast : num -> num) (f : fs) (ps : list path) (fmt : string) : gres dataset :=
  if negb torch then GErr (Passed UserError)
  else dispatch (dataset_readers torch cast f) fmt ps (UnsupportedFormat fmt).
(** generic.py:49-54 [_POSITION_READERS], 225-254 [read_positions] *)
Definition position_readers (f : fs) : list (string * (path -> res narr)) :=
  [("poscar", from_file f poscar_read_positions);
   ("outcar", from_file f (outcar_read_positions E));
   ("xdatcar", from_file f poscar_read_positions);
   ("vasprun.xml", from_file f (vasprun_read_positions E parse))].
Definition generic_read_positions (f : fs) (p : path) (fmt : string) : gres narr :=
  dispatch (position_readers f) fmt p (UnsupportedFormat fmt).
(** generic.py:55-60 [_REFERENCE_STRUCTURE_READERS], 257-283 [read_ref_structure] *)
Definition ref_structure_readers {A} (mk : list Z -> narr -> narr -> res A) (f : fs) : list (string * (path -> res A)) :=
  [("poscar", from_file f (poscar_read_ref_structure mk));
   ("outcar", from_file f (outcar_read_ref_structure mk E));
   ("xdatcar", from_file f (poscar_read_ref_structure mk));
   ("vasprun.xml", from_file f (vasprun_read_ref_structure mk E parse))].
Definition generic_read_ref_structure {A} (mk : list Z -> narr -> narr -> res A) (f : fs) (p : path) (fmt : string) : gres A :=
  dispatch (ref_structure_readers mk f) fmt p (UnsupportedFormat fmt).
End Readers.
