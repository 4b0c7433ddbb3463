(** Model of ramannoodle/io/generic.py on files of bytes: the readers of M_Generic.v, for
    files whose bytes need not be the UTF-8 of a text. *)
From Coq Require Import String ZArith NArith Reals Bool Arith List.
From Verif Require Import Base LinAlg M_Validate M_Text M_Poscar M_Outcar M_Vasprun M_Files M_Dataset M_Generic M_Bytes M_BytesOutcar.
Import ListNotations.
Local Open Scope nat_scope.
Local Open Scope string_scope.

(** What is at a path: the bytes of a file, in the blocks the operating system will deliver *)
Inductive bentry := BAbsent | BPresent (blocks : list (list N)) | BBlocked (e : exn).
Definition bfs := path -> bentry.
(** What a generic reader does: as with texts, or an encoding error *)
Inductive bgres (A : Type) := BG (r : gres A) | Coding (e : byte_exn).
Arguments BG {A} r. Arguments Coding {A} e.

(** [with open(filepath, "r")] *)
Definition from_bytes {P} (f : bfs) (read : list (list N) -> bres P) (p : path) : bres P :=
  match f p with
  | BAbsent => BErr (Plain FileNotFoundError)
  | BBlocked e => BErr (Plain e)
  | BPresent blocks => read blocks
  end.
(** generic.py: [_TABLE[file_format](filepath)] within [try ... except KeyError]; neither
    UnicodeDecodeError nor UnboundLocalError is a KeyError *)
Definition bdispatch {A P} (table : list (string * (P -> bres A))) (fmt : string) (p : P) (on_key : gerr) : bgres A :=
  match lookup table fmt with
  | None => BG (GErr on_key)
  | Some read =>
      match read p with
      | BOk a => BG (GOk a)
      | BErr (Plain KeyError) => BG (GErr on_key)
      | BErr (Plain e) => BG (GErr (Passed e))
      | BErr e => Coding e
      end
  end.

(** io/_utils.py:99-160 [_read_polarizability_dataset] as in M_Dataset.v, with a reader that may
    raise encoding errors; they are not caught *)
Section Read.
Context {Path : Type} (read_fn : Path -> bres (narr * list Z * narr * narr)).
Fixpoint byte_dataset_loop (index : nat) (lattice : narr) (numbers : list Z) (pos pol : list narr) (paths : list Path)
  : bres (narr * list Z * list narr * list narr) :=
  match paths with
  | [] => BOk (lattice, numbers, pos, pol)
  | p :: paths' =>
      let^ (l, z, x, a) := read_fn p in
      let^ _ := plain (
        if Nat.eqb index 0 then Ok tt
        else
          let* c := np_allclose lattice l in
          if negb c then Err IncompatibleStructureException
          else if negb (znumbers_eqb numbers z) then Err IncompatibleStructureException
          else match pos with
               | [] => Err IndexError
               | x0 :: _ => if negb (shape_eqb (na_shape x0) (na_shape x)) then Err IncompatibleStructureException
                            else Ok tt
               end) in
      byte_dataset_loop (S index) l z (pos ++ [x]) (pol ++ [a]) paths'
  end.
Definition byte_dataset (torch : bool) (cast : num -> num) (paths : list Path) : bres dataset :=
  if negb torch then BErr (Plain UserError)
  else match paths with
       | [] => BErr (Plain ValueError)
       | _ =>
           let^ (lattice, numbers, pos, pol) :=
             byte_dataset_loop 0 (mkNarr [3; 3] (repeat (Fin 0) 9)) [] [] [] paths in
           let^ ps := plain (np_stack pos) in
           let^ pls := plain (np_stack pol) in
           plain (dataset_new cast lattice numbers ps pls)
       end.
End Read.

Section Readers.
(** [parse]: the XML parser; [early]: whether it finds an error in the text before the first
    bytes that are not UTF-8 *)
Context (E : env) (parse : text -> parsed) (early : list (list N) -> bool).
(** vasprun.py:21-32: the parser reads from a file opened as UTF-8 text; only its own errors are
    caught *)
Definition as_xml {A} (read : (text -> parsed) -> text -> res A) (blocks : list (list N)) : bres A :=
  match utf8_decode (concat blocks) with
  | Some (t, []) => plain (read parse t)
  | _ => if early blocks then plain (read (fun _ => ParseError) []) else BErr UnicodeDecodeError
  end.
(** poscar.py:123-149, 177-201 *)
Definition poscar_positions_file (blocks : list (list N)) : bres narr :=
  let^ rows := read_positions_file E blocks in BOk (narr_of_rows rows).
Definition poscar_ref_structure_file {A} (mk : list Z -> narr -> narr -> res A) (blocks : list (list N)) : bres A :=
  let^ (lattice, numbers, positions) := read_structure_file E blocks in
  plain (mk numbers (narr_of_rows lattice) (narr_of_rows positions)).

(** generic.py:29-32, 68-91 *)
Definition byte_read_phonons (f : bfs) (p : path) (fmt : string) : bgres nphonons :=
  bdispatch [("outcar", from_bytes f (outcar_phonons_file E));
             ("vasprun.xml", from_bytes f (as_xml (vasprun_read_phonons E)))] fmt p (UnsupportedFormat fmt).
(** generic.py:33-36, 94-123 *)
Definition byte_read_trajectory (f : bfs) (p : path) (fmt : string) : bgres ntrajectory :=
  bdispatch [("outcar", from_bytes f (outcar_trajectory_file E));
             ("vasprun.xml", from_bytes f (as_xml (vasprun_read_trajectory E)))] fmt p
    (if String.eqb fmt "xdatcar" then XdatcarTrajectory else UnsupportedFormat fmt).
(** generic.py:37-40, 126-155 *)
Definition byte_read_positions_and_polarizability (f : bfs) (p : path) (fmt : string) : bgres (narr * narr) :=
  bdispatch [("outcar", from_bytes f (outcar_positions_and_polarizability_file E));
             ("vasprun.xml", from_bytes f (as_xml (vasprun_read_positions_and_polarizability E)))] fmt p (UnsupportedFormat fmt).
(** generic.py:41-44, 158-189 *)
Definition byte_read_structure_and_polarizability (f : bfs) (p : path) (fmt : string) : bgres (narr * list Z * narr * narr) :=
  bdispatch [("outcar", from_bytes f (outcar_structure_and_polarizability_file E));
             ("vasprun.xml", from_bytes f (as_xml (vasprun_read_structure_and_polarizability E)))] fmt p (UnsupportedFormat fmt).
(** generic.py:45-48, 192-222 *)
Definition byte_read_dataset (torch : bool) (cast : num -> num) (f : bfs) (ps : list path) (fmt : string) : bgres dataset :=
  if negb torch then BG (GErr (Passed UserError))
  else bdispatch [("outcar", byte_dataset (from_bytes f (outcar_structure_and_polarizability_file E)) torch cast);
                  ("vasprun.xml", byte_dataset (from_bytes f (as_xml (vasprun_read_structure_and_polarizability E))) torch cast)]
         fmt ps (UnsupportedFormat fmt).
(** generic.py:49-54, 225-254 *)
Definition byte_read_positions (f : bfs) (p : path) (fmt : string) : bgres narr :=
  bdispatch [("poscar", from_bytes f poscar_positions_file);
             ("outcar", from_bytes f (outcar_positions_file E));
             ("xdatcar", from_bytes f poscar_positions_file);
             ("vasprun.xml", from_bytes f (as_xml (vasprun_read_positions E)))] fmt p (UnsupportedFormat fmt).
(** generic.py:55-60, 257-283 *)
Definition byte_read_ref_structure {A} (mk : list Z -> narr -> narr -> res A) (f : bfs) (p : path) (fmt : string) : bgres A :=
  bdispatch [("poscar", from_bytes f (poscar_ref_structure_file mk));
             ("outcar", from_bytes f (outcar_ref_structure_file mk E));
             ("xdatcar", from_bytes f (poscar_ref_structure_file mk));
             ("vasprun.xml", from_bytes f (as_xml (vasprun_read_ref_structure mk E)))] fmt p (UnsupportedFormat fmt).
End Readers.
