(** Theorems about line ends: C80. *)
From Coq Require Import String ZArith NArith Bool Arith List.
From Verif Require Import Base LinAlg M_Validate M_Text M_Poscar M_Outcar M_Vasprun M_Files M_Dataset M_Generic S_Ends P_Ends P_Examples5 P_Examples11.
Import ListNotations.
Local Open Scope nat_scope.

(** C80: files with Windows or old Macintosh line ends are read like files with Unix line ends. *)
Theorem C80_structure : forall E s t,
  same_text s t -> read_structure E t = read_structure E s.
Proof. exact f_C80_structure. Qed.
Print Assumptions C80_structure.

Theorem C80_positions_ts : forall E s t,
  same_text s t -> read_positions_ts E t = read_positions_ts E s.
Proof. exact f_C80_positions_ts. Qed.
Print Assumptions C80_positions_ts.

Theorem C80_phonons : forall (E : env) (parse : text -> parsed) (f f' : fs), same_files f f' -> forall p,
  generic_read_phonons E parse f' p "outcar" = generic_read_phonons E parse f p "outcar".
Proof. exact f_C80_phonons. Qed.
Print Assumptions C80_phonons.

Theorem C80_trajectory : forall (E : env) (parse : text -> parsed) (f f' : fs), same_files f f' -> forall p,
  generic_read_trajectory E parse f' p "outcar" = generic_read_trajectory E parse f p "outcar".
Proof. exact f_C80_trajectory. Qed.
Print Assumptions C80_trajectory.

Theorem C80_positions_and_polarizability : forall (E : env) (parse : text -> parsed) (f f' : fs), same_files f f' -> forall p,
  generic_read_positions_and_polarizability E parse f' p "outcar" = generic_read_positions_and_polarizability E parse f p "outcar".
Proof. exact f_C80_positions_and_polarizability. Qed.
Print Assumptions C80_positions_and_polarizability.

Theorem C80_structure_and_polarizability : forall (E : env) (parse : text -> parsed) (f f' : fs), same_files f f' -> forall p,
  generic_read_structure_and_polarizability E parse f' p "outcar" = generic_read_structure_and_polarizability E parse f p "outcar".
Proof. exact f_C80_structure_and_polarizability. Qed.
Print Assumptions C80_structure_and_polarizability.

Theorem C80_positions : forall (E : env) (parse : text -> parsed) (f f' : fs), same_files f f' -> forall p fmt,
  fmt = "poscar"%string \/ fmt = "outcar"%string \/ fmt = "xdatcar"%string -> generic_read_positions E parse f' p fmt = generic_read_positions E parse f p fmt.
Proof. exact f_C80_positions. Qed.
Print Assumptions C80_positions.

Theorem C80_ref_structure : forall (E : env) (parse : text -> parsed) (f f' : fs), same_files f f' -> forall (A : Type) (mk : list Z -> narr -> narr -> res A) p fmt,
  fmt = "poscar"%string \/ fmt = "outcar"%string \/ fmt = "xdatcar"%string ->
  generic_read_ref_structure E parse mk f' p fmt = generic_read_ref_structure E parse mk f p fmt.
Proof. exact @f_C80_ref_structure. Qed.
Print Assumptions C80_ref_structure.

Theorem C80_dataset : forall (E : env) (parse : text -> parsed) (f f' : fs), same_files f f' -> forall torch cast ps,
  generic_read_dataset E parse torch cast f' ps "outcar" = generic_read_dataset E parse torch cast f ps "outcar".
Proof. exact f_C80_dataset. Qed.
Print Assumptions C80_dataset.

Example C80_nonvacuous :
  same_files ex_unix ex_windows /\ ex_windows (txt "POSCAR") <> ex_unix (txt "POSCAR") /\
  same_text ex_cart_file (with_line_ends CR ex_cart_file) /\ exists s, read_structure exE ex_cart_file = Ok s.
Proof. exact ex_C80. Qed.
