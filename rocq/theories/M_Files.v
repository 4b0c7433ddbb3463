(** Model of the file-system effects of the writers: ramannoodle/io/vasp/poscar.py,
    ramannoodle/io/vasp/xdatcar.py and the dispatch of ramannoodle/io/generic.py.

    A file system maps paths to what is there.  Distinct paths are distinct files (links are
    not modelled).  [Blocked e]: opening the path raises [e] (a directory, a missing parent
    directory, missing permission). *)
From Coq Require Import String Ascii ZArith NArith Bool Arith List.
From Verif Require Import Base M_Text M_Poscar.
Import ListNotations.

Definition path := text.
Inductive entry := Absent | Present (content : text) | Blocked (e : exn).
Definition fs := path -> entry.
Definition upd (f : fs) (p : path) (x : entry) : fs := fun q => if teqb p q then x else f q.

(** [open(filepath, "w" if overwrite else "x")] *)
Definition open_write (f : fs) (p : path) (overwrite : bool) : res fs :=
  match f p with
  | Absent => Ok (upd f p (Present []))
  | Present _ => if overwrite then Ok (upd f p (Present [])) else Err FileExistsError
  | Blocked e => Err e
  end.

(** While the file is open: text passed to [file.write] is buffered, and any part of the
    buffer can reach the file at any time *)
Record wstate := mkW { w_fs : fs; w_buffer : text; w_todo : list text }.
Inductive wstep (p : path) : wstate -> wstate -> Prop :=
| w_write f b t ts : wstep p (mkW f b (t :: ts)) (mkW f (b ++ t) ts)
| w_flush f c a b ts : f p = Present c -> wstep p (mkW f (a ++ b) ts) (mkW (upd f p (Present (c ++ a))) b ts).
Inductive wsteps (p : path) : wstate -> wstate -> Prop :=
| w_refl s : wsteps p s s
| w_trans s t u : wsteps p s t -> wstep p t u -> wsteps p s u.

(** How a call ends: returns, raises, or is interrupted (crash, kill, I/O error while
    writing) *)
Inductive outcome := Done | Raised (e : exn) | Interrupted.

(** poscar.py:263-279, xdatcar.py:110-128: all pieces are computed (or an exception raised)
    before the file is opened; leaving the [with] block flushes everything *)
Inductive write_run (f : fs) (p : path) (overwrite : bool) (pieces : res (list text)) : outcome -> fs -> Prop :=
| run_invalid e : pieces = Err e -> write_run f p overwrite pieces (Raised e) f
| run_open ts e : pieces = Ok ts -> open_write f p overwrite = Err e -> write_run f p overwrite pieces (Raised e) f
| run_done ts f1 f2 : pieces = Ok ts -> open_write f p overwrite = Ok f1 ->
    wsteps p (mkW f1 [] ts) (mkW f2 [] []) -> write_run f p overwrite pieces Done f2
| run_interrupted ts f1 s : pieces = Ok ts -> open_write f p overwrite = Ok f1 ->
    wsteps p (mkW f1 [] ts) s -> write_run f p overwrite pieces Interrupted (w_fs s).

(** poscar.py:239-279 [write_structure], xdatcar.py:85-128 [write_trajectory] *)
Definition write_structure (E : env) (f : fs) (lattice : narr) (numbers : list Z) (positions : narr)
    (p : path) (overwrite : bool) (label : text) : outcome -> fs -> Prop :=
  write_run f p overwrite (structure_pieces E lattice numbers positions label).
Definition write_trajectory (E : env) (f : fs) (lattice : narr) (numbers : list Z) (positions_ts : narr)
    (p : path) (overwrite : bool) (label : text) : outcome -> fs -> Prop :=
  write_run f p overwrite (trajectory_pieces E lattice numbers positions_ts label).

(** generic.py:61-65 [_STRUCTURE_WRITERS], [_TRAJECTORY_WRITERS]: the supported formats *)
Definition structure_formats : list string := ["poscar"; "xdatcar"]%string.
Definition trajectory_formats : list string := ["xdatcar"]%string.
Definition supported (formats : list string) (fmt : string) : bool := existsb (String.eqb fmt) formats.
(** [except KeyError: raise ValueError] *)
Definition key_to_value (e : exn) : exn := match e with KeyError => ValueError | _ => e end.
Definition generic_pieces {A} (formats : list string) (fmt : string) (r : res A) : res A :=
  if supported formats fmt then match r with Ok a => Ok a | Err e => Err (key_to_value e) end
  else Err ValueError.

Definition structure_label : text := txt "POSCAR written by ramannoodle".
Definition trajectory_label : text := txt "XDATCAR written by ramannoodle".
(** generic.py:286-327 [write_structure] and 330-369 [write_trajectory] (default label).  An
    exception raised by opening the file is not a KeyError. *)
Definition generic_write_structure (E : env) (f : fs) (lattice : narr) (numbers : list Z) (positions : narr)
    (p : path) (fmt : string) (overwrite : bool) : outcome -> fs -> Prop :=
  write_run f p overwrite
    (generic_pieces structure_formats fmt (structure_pieces E lattice numbers positions structure_label)).
Definition generic_write_trajectory (E : env) (f : fs) (lattice : narr) (numbers : list Z) (positions_ts : narr)
    (p : path) (fmt : string) (overwrite : bool) : outcome -> fs -> Prop :=
  write_run f p overwrite
    (generic_pieces trajectory_formats fmt (trajectory_pieces E lattice numbers positions_ts trajectory_label)).
