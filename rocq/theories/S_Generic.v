(** Specification vocabulary for the generic readers. *)
From Coq Require Import String ZArith NArith Reals Bool Arith List.
From Verif Require Import Base LinAlg M_Text M_Poscar M_Outcar M_Vasprun M_Files M_Dataset M_Generic S_Vasprun.
Import ListNotations.
Local Open Scope string_scope.

(** How a generic reader reports what the specific reader for [fmt] did *)
Definition reported {A} (fmt : string) (specific : res A) (generic : gres A) : Prop :=
  match specific with
  | Ok a => generic = GOk a
  | Err KeyError => generic = GErr (UnsupportedFormat fmt)
  | Err e => generic = GErr (Passed e)
  end.
(** Neither the file system nor the XML parser raises KeyErrors of their own *)
Definition no_key_errors (f : fs) (parse : text -> parsed) : Prop :=
  (forall p, f p <> Blocked KeyError) /\ (forall c, parse c <> Raises KeyError).
(** The vasprun.xml at [p] lists a symbol that is no element *)
Definition unknown_symbol (f : fs) (parse : text -> parsed) (p : path) : Prop :=
  exists content root symbols s, f p = Present content /\ parse content = Tree root /\
    symbols_are root symbols /\ In s symbols /\ symbol_number s = None.
