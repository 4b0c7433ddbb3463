(** OUTCAR files as bytes: the readers of M_Outcar.v on the text layer of M_Bytes.v.  A line is
    decoded when it is asked for, so bytes that are not UTF-8 matter only to a reader that gets
    there. *)
From Coq Require Import String Ascii ZArith NArith QArith Qreals Reals Bool Arith List.
From Verif Require Import Base LinAlg Constants M_Validate M_StructUtils M_Text M_Poscar M_Outcar M_Bytes.
Import ListNotations.
Local Open Scope nat_scope.

(** What the coming reads give: lines, then the end of the file or, if [broken],
    UnicodeDecodeError *)
Record bfile := mkBF { bf_lines : list text; bf_broken : bool }.
(** [fuel]: every line has at least a byte *)
Fixpoint line_sequence (fuel : nat) (st : stream) : bfile :=
  match fuel with
  | O => mkBF [] false
  | S fuel' =>
      match stream_readline st with
      | None => mkBF [] true
      | Some ([], _) => mkBF [] false
      | Some (l, st') => let r := line_sequence fuel' st' in mkBF (l :: bf_lines r) (bf_broken r)
      end
  end.
Definition outcar_stream (blocks : list (list N)) : bfile :=
  line_sequence (S (List.length (concat blocks))) (open_file blocks).
(** [file.readline()]; None: UnicodeDecodeError *)
Definition byte_next (f : bfile) : option (text * bfile) :=
  match bf_lines f with
  | l :: ls => Some (l, mkBF ls (bf_broken f))
  | [] => if bf_broken f then None else Some ([], f)
  end.
(** io/_utils.py:28-33 *)
Fixpoint byte_skip (marker : text) (ls : list text) (broken : bool) : bres (text * bfile) :=
  match ls with
  | [] => BErr (if broken then UnicodeDecodeError else Plain NoMatchingLineFoundException)
  | l :: ls' => if contains marker l then BOk (l, mkBF ls' broken) else byte_skip marker ls' broken
  end.
Definition skip (marker : string) (f : bfile) : bres (text * bfile) := byte_skip (txt marker) (bf_lines f) (bf_broken f).
Definition byte_or_invalid {A} (msg : text) (r : bres A) : bres A :=
  match r with
  | BErr (Plain NoMatchingLineFoundException) => BErr (Plain (InvalidFileException msg))
  | _ => r
  end.

(** outcar.py:59-62; [line] is the line read last.  Also returns what [line] holds afterwards. *)
Fixpoint byte_potcar (line : text) (ls : list text) (broken : bool) : bres (list text * text * bfile) :=
  match ls with
  | [] => if broken then plain (invalid "POTCAR block could not be parsed: " line) else BOk ([], line, mkBF [] false)
  | l :: ls' =>
      if contains (txt "POTCAR") l then
        match potcar_symbol l with
        | Some s => let^ (ss, line', r) := byte_potcar l ls' broken in BOk (s :: ss, line', r)
        | None => plain (invalid "POTCAR block could not be parsed: " l)
        end
      else BOk ([], l, mkBF ls' broken)
  end.
(** outcar.py:46-86 [_read_atomic_symbols]: UnicodeDecodeError is a ValueError, and [line] is
    unbound while the first marker is looked for; the second [try] does not catch it *)
Definition byte_outcar_symbols (f : bfile) : bres (list text * bfile) :=
  match byte_or_invalid (txt "POTCAR block not found") (skip "POTCAR:    " f) with
  | BErr UnicodeDecodeError => BErr UnboundLocalError
  | BErr e => BErr e
  | BOk (l, f1) =>
      match potcar_symbol l with
      | None => plain (invalid "POTCAR block could not be parsed: " l)
      | Some s =>
          let^ (ss, line, f2) := byte_potcar l (bf_lines f1) (bf_broken f1) in
          match byte_next f2 with
          | None => plain (invalid "POTCAR block could not be parsed: " line)
          | Some (l3, f3) =>
              let symbols := if contains (txt "VRHFIN") l3 then removelast (s :: ss) else s :: ss in
              let^ (l4, f4) := byte_or_invalid (txt "ion number block could not be parsed: " ++ l3) (skip "ions per type" f3) in
              match ints (skipn 4 (split l4)) with
              | None => BErr (Plain ValueError)
              | Some ns => BOk (flat_map (fun p => repeat (fst p) (Z.to_nat (snd p))) (combine symbols ns), f4)
              end
          end
      end
  end.

(** outcar.py:126-136, 153-162, 184-193, 233-241, 468-477: the reads are inside [try]; [line] is
    unbound before the first *)
Fixpoint byte_table_rows (E : env) (msg : string) (n : nat) (line : option text) (f : bfile) : bres (list (list num) * bfile) :=
  match n with
  | O => BOk ([], f)
  | S n' =>
      match byte_next f with
      | None => handler msg line
      | Some (l, f1) =>
          match floats E (firstn 3 (split l)) with
          | None => plain (invalid msg l)
          | Some r => let^ (rs, f2) := byte_table_rows E msg n' (Some l) f1 in BOk (r :: rs, f2)
          end
      end
  end.
Definition byte_table (E : env) (msg : string) (n : nat) (f : bfile) : bres (narr * bfile) :=
  let^ (rs, f1) := byte_table_rows E msg n None f in
  let^ a := plain (np_rows rs) in
  BOk (a, f1).
(** A read outside any [try] *)
Definition byte_line (f : bfile) : bres (text * bfile) :=
  match byte_next f with Some p => BOk p | None => BErr UnicodeDecodeError end.
(** outcar.py:139-162 [_read_positions] *)
Definition byte_fractional (E : env) (n : nat) (f : bfile) : bres (narr * bfile) :=
  let^ (_, f1) := byte_or_invalid (txt "fractional positions not found")
     (skip "position of ions in fractional coordinates (direct lattice)" f) in
  byte_table E "fractional positions could not be parsed: " n f1.
(** outcar.py:165-193 [_read_polarizability] *)
Definition byte_polarizability (E : env) (f : bfile) : bres (narr * bfile) :=
  let^ (_, f1) := byte_or_invalid (txt "polarizability not found")
     (skip "MACROSCOPIC STATIC DIELECTRIC TENSOR (including local field effects" f) in
  let^ (_, f2) := byte_line f1 in
  byte_table E "polarizability could not be parsed: " 3 f2.
(** outcar.py:212-241 [_read_lattice] *)
Definition byte_outcar_lattice (E : env) (f : bfile) : bres (narr * bfile) :=
  let^ (_, f1) := byte_or_invalid (txt "outcar does not have expected format")
     (let^ (_, f0) := skip "Write flags" f in
      skip "direct lattice vectors      " f0) in
  byte_table E "lattice could not be parsed: " 3 f1.

(** ** Public readers *)
(** outcar.py:306-337 [read_positions_and_polarizability] *)
Definition outcar_positions_and_polarizability_file (E : env) (blocks : list (list N)) : bres (narr * narr) :=
  let^ (symbols, f1) := byte_outcar_symbols (outcar_stream blocks) in
  let^ (positions, f2) := byte_fractional E (List.length symbols) f1 in
  let^ (polarizability, _) := byte_polarizability E f2 in
  BOk (positions, polarizability).
(** outcar.py:340-363 [read_positions] *)
Definition outcar_positions_file (E : env) (blocks : list (list N)) : bres narr :=
  let^ (symbols, f1) := byte_outcar_symbols (outcar_stream blocks) in
  let^ (positions, _) := byte_fractional E (List.length symbols) f1 in
  BOk positions.
(** outcar.py:366-401 [read_structure_and_polarizability] *)
Definition outcar_structure_and_polarizability_file (E : env) (blocks : list (list N)) : bres (narr * list Z * narr * narr) :=
  let^ (symbols, f1) := byte_outcar_symbols (outcar_stream blocks) in
  let^ (lattice, f2) := byte_outcar_lattice E f1 in
  let^ (positions, f3) := byte_fractional E (List.length symbols) f2 in
  let^ (polarizability, _) := byte_polarizability E f3 in
  BOk (lattice, numbers_of symbols, positions, polarizability).
(** outcar.py:429-454 [read_ref_structure] *)
Definition outcar_ref_structure_file {A} (mk : list Z -> narr -> narr -> res A) (E : env) (blocks : list (list N)) : bres A :=
  let^ (symbols, f1) := byte_outcar_symbols (outcar_stream blocks) in
  let^ (lattice, f2) := byte_outcar_lattice E f1 in
  let^ (positions, _) := byte_fractional E (List.length symbols) f2 in
  plain (mk (numbers_of symbols) lattice positions).

(** outcar.py:89-110 [_read_eigenvector]: the loop itself is inside [try] *)
Fixpoint byte_eigen (E : env) (n : nat) (lattice : narr) (acc : list n3) (line : option text) (ls : list text) (broken : bool)
  : bres (list n3 * bfile) :=
  match ls with
  | [] => if broken then handler "eigenvector could not be parsed: " line else BOk (rev acc, mkBF [] false)
  | l :: ls' =>
      if Nat.eqb (List.length acc) n then BOk (rev acc, mkBF ls' broken)
      else if contains (txt "X") l then byte_eigen E n lattice acc (Some l) ls' broken
      else
        match floats E (skipn 3 (split l)), inv_arr E lattice with
        | Some [a; b; c], Ok i => byte_eigen E n lattice (row_mul (mkN3 a b c) i :: acc) (Some l) ls' broken
        | _, _ => plain (invalid "eigenvector could not be parsed: " l)
        end
  end.
(** outcar.py:286-295: only a missing line, a short one and TypeError are caught *)
Definition byte_mode_line (E : env) (f : bfile) : bres (num * bfile) :=
  let^ (l, f1) := byte_or_invalid (txt "eigenvalue could not be parsed") (skip "cm-1" f) in
  if contains (txt "f/i") l
  then let^ x := plain (word_float E (txt "eigenvalue could not be parsed") 6 l) in BOk (num_opp x, f1)
  else let^ x := plain (word_float E (txt "eigenvalue could not be parsed") 7 l) in BOk (x, f1).
(** outcar.py:285-296 *)
Fixpoint byte_modes (E : env) (k n : nat) (lattice : narr) (f : bfile) : bres (list num * list narr) :=
  match k with
  | O => BOk ([], [])
  | S k' =>
      let^ (w, f1) := byte_mode_line E f in
      let^ (v, f2) := byte_eigen E n lattice [] None (bf_lines f1) (bf_broken f1) in
      let^ (ws, vs) := byte_modes E k' n lattice f2 in
      BOk (w :: ws, narr_of_rows v :: vs)
  end.
(** outcar.py:244-303 [read_phonons] *)
Definition outcar_phonons_file (E : env) (blocks : list (list N)) : bres nphonons :=
  let^ (symbols, f1) := byte_outcar_symbols (outcar_stream blocks) in
  let^ weights := plain (mapM atomic_weight symbols) in
  let n := List.length symbols in
  let^ (lattice, f2) := byte_outcar_lattice E f1 in
  let^ (ref, f3) := byte_fractional E n f2 in
  let^ (_, f4) := byte_or_invalid (txt "eigenvector/eigenvalues block not found")
     (skip "Eigenvectors and eigenvalues of the dynamical matrix" f3) in
  let^ (ws, vs) := byte_modes E (n * 3) n lattice f4 in
  let^ ev := plain (np_stack vs) in
  let^ disp := plain (div_weights ev weights) in
  plain (phonons_of ref (mkNarr [List.length ws] ws) disp).

(** outcar.py:480-494 [_read_timestep] *)
Definition byte_timestep (E : env) (f : bfile) : bres (num * bfile) :=
  let^ (l, f1) := byte_or_invalid (txt "timestep not found") (skip "time-step for ionic-motion" f) in
  let^ x := plain (word_float E (txt "timestep could not be parsed: " ++ l) 2 l) in
  BOk (x, f1).
(** outcar.py:457-477 [_read_next_cart_positions_ts]: its first read is outside [try] *)
Definition byte_next_cart (E : env) (n : nat) (f : bfile) : bres (narr * bfile) :=
  let^ (_, f1) := byte_line f in
  byte_table E "Cartesian positions could not be parsed: " n f1.
(** outcar.py:517-533; [fuel] as in M_Outcar.v *)
Fixpoint byte_blocks (E : env) (fuel n : nat) (lattice : narr) (ml_step : bool) (f : bfile) : bres (list narr) :=
  match fuel with
  | O => BOk []
  | S fuel' =>
      match byte_skip position_marker (bf_lines f) (bf_broken f) with
      | BErr (Plain NoMatchingLineFoundException) => BOk []
      | BErr e => BErr e
      | BOk (l, f1) =>
          let ml := contains (txt "(ML)") l in
          if ml_step && negb ml then byte_blocks E fuel' n lattice ml f1
          else
            let^ (cart, f2) := byte_next_cart E n f1 in
            let^ i := plain (inv_arr E lattice) in
            let^ p := plain (matmul_inv cart i) in
            let^ ps := byte_blocks E fuel' n lattice ml f2 in
            BOk (p :: ps)
      end
  end.
(** outcar.py:497-538 [read_trajectory] *)
Definition outcar_trajectory_file (E : env) (blocks : list (list N)) : bres ntrajectory :=
  let^ (symbols, f1) := byte_outcar_symbols (outcar_stream blocks) in
  let^ (timestep, f2) := byte_timestep E f1 in
  let^ (lattice, f3) := byte_outcar_lattice E f2 in
  let^ ps := byte_blocks E (S (List.length (bf_lines f3))) (List.length symbols) lattice false f3 in
  match ps with
  | [] => plain (Err (InvalidFileException (txt "no trajectory found")))
  | _ => let^ ts := plain (np_stack ps) in plain (trajectory_of ts timestep)
  end.
