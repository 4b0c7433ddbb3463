(** Theorems about the generic readers: C63. *)
From Coq Require Import String Ascii ZArith NArith QArith Reals Bool Arith List Lia.
From Verif Require Import Base LinAlg Constants M_Validate M_Text M_Poscar M_Outcar M_Vasprun M_Files M_Dataset M_Generic
  S_Text S_Outcar S_Vasprun S_Generic P_Generic P_Generic2 P_Examples7 P_Examples9.
Import ListNotations.
Local Open Scope string_scope.

(** C63: a supported format is handled by the specific reader. *)
Theorem C63_phonons : forall (E : env) (parse : text -> parsed) f p,
  reported "outcar" (from_file f (outcar_read_phonons E) p) (generic_read_phonons E parse f p "outcar") /\
  reported "vasprun.xml" (from_file f (vasprun_read_phonons E parse) p) (generic_read_phonons E parse f p "vasprun.xml").
Proof. exact f_C63_phonons. Qed.
Print Assumptions C63_phonons.

Theorem C63_trajectory : forall (E : env) (parse : text -> parsed) f p,
  reported "outcar" (from_file f (outcar_read_trajectory E) p) (generic_read_trajectory E parse f p "outcar") /\
  reported "vasprun.xml" (from_file f (vasprun_read_trajectory E parse) p) (generic_read_trajectory E parse f p "vasprun.xml").
Proof. exact f_C63_trajectory. Qed.
Print Assumptions C63_trajectory.

Theorem C63_positions_and_polarizability : forall (E : env) (parse : text -> parsed) f p,
  reported "outcar" (from_file f (outcar_read_positions_and_polarizability E) p) (generic_read_positions_and_polarizability E parse f p "outcar") /\
  reported "vasprun.xml" (from_file f (vasprun_read_positions_and_polarizability E parse) p) (generic_read_positions_and_polarizability E parse f p "vasprun.xml").
Proof. exact f_C63_positions_and_polarizability. Qed.
Print Assumptions C63_positions_and_polarizability.

Theorem C63_structure_and_polarizability : forall (E : env) (parse : text -> parsed) f p,
  reported "outcar" (from_file f (outcar_read_structure_and_polarizability E) p) (generic_read_structure_and_polarizability E parse f p "outcar") /\
  reported "vasprun.xml" (from_file f (vasprun_read_structure_and_polarizability E parse) p) (generic_read_structure_and_polarizability E parse f p "vasprun.xml").
Proof. exact f_C63_structure_and_polarizability. Qed.
Print Assumptions C63_structure_and_polarizability.

Theorem C63_dataset : forall (E : env) (parse : text -> parsed) cast f ps,
  reported "outcar" (read_dataset (from_file f (outcar_read_structure_and_polarizability E)) true cast ps) (generic_read_dataset E parse true cast f ps "outcar") /\
  reported "vasprun.xml" (read_dataset (from_file f (vasprun_read_structure_and_polarizability E parse)) true cast ps) (generic_read_dataset E parse true cast f ps "vasprun.xml").
Proof. exact f_C63_dataset. Qed.
Print Assumptions C63_dataset.

Theorem C63_positions : forall (E : env) (parse : text -> parsed) f p,
  reported "poscar" (from_file f (poscar_read_positions E) p) (generic_read_positions E parse f p "poscar") /\
  reported "outcar" (from_file f (outcar_read_positions E) p) (generic_read_positions E parse f p "outcar") /\
  reported "xdatcar" (from_file f (poscar_read_positions E) p) (generic_read_positions E parse f p "xdatcar") /\
  reported "vasprun.xml" (from_file f (vasprun_read_positions E parse) p) (generic_read_positions E parse f p "vasprun.xml").
Proof. exact f_C63_positions. Qed.
Print Assumptions C63_positions.

Theorem C63_ref_structure : forall (E : env) (parse : text -> parsed) (A : Type) (mk : list Z -> narr -> narr -> res A) f p,
  reported "poscar" (from_file f (poscar_read_ref_structure E mk) p) (generic_read_ref_structure E parse mk f p "poscar") /\
  reported "outcar" (from_file f (outcar_read_ref_structure mk E) p) (generic_read_ref_structure E parse mk f p "outcar") /\
  reported "xdatcar" (from_file f (poscar_read_ref_structure E mk) p) (generic_read_ref_structure E parse mk f p "xdatcar") /\
  reported "vasprun.xml" (from_file f (vasprun_read_ref_structure mk E parse) p) (generic_read_ref_structure E parse mk f p "vasprun.xml").
Proof. exact f_C63_ref_structure. Qed.
Print Assumptions C63_ref_structure.

(** C63: formats that are not supported, and missing files. *)
Theorem C63_unsupported : forall (E : env) (parse : text -> parsed) (A : Type) (mk : list Z -> narr -> narr -> res A) torch cast f p ps fmt,
  (~ In fmt ["outcar"; "vasprun.xml"] ->
     generic_read_phonons E parse f p fmt = GErr (UnsupportedFormat fmt) /\
     generic_read_trajectory E parse f p fmt = GErr (if String.eqb fmt "xdatcar" then XdatcarTrajectory else UnsupportedFormat fmt) /\
     generic_read_positions_and_polarizability E parse f p fmt = GErr (UnsupportedFormat fmt) /\
     generic_read_structure_and_polarizability E parse f p fmt = GErr (UnsupportedFormat fmt) /\
     generic_read_dataset E parse torch cast f ps fmt = GErr (if torch then UnsupportedFormat fmt else Passed UserError)) /\
  (~ In fmt ["poscar"; "outcar"; "xdatcar"; "vasprun.xml"] ->
     generic_read_positions E parse f p fmt = GErr (UnsupportedFormat fmt) /\
     generic_read_ref_structure E parse mk f p fmt = GErr (UnsupportedFormat fmt)).
Proof. exact f_C63_unsupported. Qed.
Print Assumptions C63_unsupported.

Theorem C63_missing_file : forall (E : env) (parse : text -> parsed) (A : Type) (mk : list Z -> narr -> narr -> res A) f p fmt,
  f p = Absent ->
  (In fmt ["outcar"; "vasprun.xml"] ->
     generic_read_phonons E parse f p fmt = GErr (Passed FileNotFoundError) /\
     generic_read_trajectory E parse f p fmt = GErr (Passed FileNotFoundError) /\
     generic_read_positions_and_polarizability E parse f p fmt = GErr (Passed FileNotFoundError) /\
     generic_read_structure_and_polarizability E parse f p fmt = GErr (Passed FileNotFoundError)) /\
  (In fmt ["poscar"; "outcar"; "xdatcar"; "vasprun.xml"] ->
     generic_read_positions E parse f p fmt = GErr (Passed FileNotFoundError) /\
     generic_read_ref_structure E parse mk f p fmt = GErr (Passed FileNotFoundError)).
Proof. exact f_C63_missing_file. Qed.
Print Assumptions C63_missing_file.

(** C63: when a supported format is reported as unsupported. *)
Theorem C63_never_masked : forall (E : env) (parse : text -> parsed) f p fmt,
  no_key_errors f parse -> forall fmt',
  (In fmt ["outcar"; "vasprun.xml"] -> generic_read_trajectory E parse f p fmt <> GErr (UnsupportedFormat fmt') /\
     generic_read_positions_and_polarizability E parse f p fmt <> GErr (UnsupportedFormat fmt')) /\
  (In fmt ["poscar"; "outcar"; "xdatcar"; "vasprun.xml"] -> generic_read_positions E parse f p fmt <> GErr (UnsupportedFormat fmt')).
Proof. exact f_C63_never_masked. Qed.
Print Assumptions C63_never_masked.

Theorem C63_masked : forall (E : env) (parse : text -> parsed) (A : Type) (mk : list Z -> narr -> narr -> res A) f p fmt,
  no_key_errors f parse -> (forall z l x, mk z l x <> Err KeyError) ->
  (In fmt ["outcar"; "vasprun.xml"] ->
     (generic_read_phonons E parse f p fmt = GErr (UnsupportedFormat fmt) <-> fmt = "vasprun.xml" /\ unknown_symbol f parse p) /\
     (generic_read_structure_and_polarizability E parse f p fmt = GErr (UnsupportedFormat fmt) <-> fmt = "vasprun.xml" /\ unknown_symbol f parse p)) /\
  (In fmt ["poscar"; "outcar"; "xdatcar"; "vasprun.xml"] ->
     (generic_read_ref_structure E parse mk f p fmt = GErr (UnsupportedFormat fmt) <-> fmt = "vasprun.xml" /\ unknown_symbol f parse p)).
Proof. exact f_C63_masked. Qed.
Print Assumptions C63_masked.

Theorem C63_dataset_masked : forall (E : env) (parse : text -> parsed) torch cast f ps fmt,
  no_key_errors f parse -> In fmt ["outcar"; "vasprun.xml"] ->
  generic_read_dataset E parse torch cast f ps fmt = GErr (UnsupportedFormat fmt) -> fmt = "vasprun.xml" /\ exists p, In p ps /\ unknown_symbol f parse p.
Proof. exact f_C63_dataset_masked. Qed.
Print Assumptions C63_dataset_masked.

Theorem C63_message_refuted :
  ~ (forall E parse f p fmt, no_key_errors f parse -> In fmt ["outcar"; "vasprun.xml"] ->
  generic_read_structure_and_polarizability E parse f p fmt <> GErr (UnsupportedFormat fmt)).
Proof. exact f_C63_message_refuted. Qed.
Print Assumptions C63_message_refuted.

Example C63_nonvacuous :
  no_key_errors g_fs v_parse /\ no_key_errors g_fs x_parse /\ unknown_symbol g_fs x_parse (txt "vasprun.xml") /\
  (exists a, generic_read_positions oE v_parse g_fs (txt "vasprun.xml") "vasprun.xml" = GOk a) /\
  (exists a, generic_read_positions oE x_parse g_fs (txt "vasprun.xml") "vasprun.xml" = GOk a) /\
  g_fs (txt "OUTCAR") = Absent.
Proof. exact ex_C63. Qed.
