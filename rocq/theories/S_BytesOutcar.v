(** Specification vocabulary for OUTCAR files that are not UTF-8 throughout. *)
From Coq Require Import String ZArith NArith Reals Bool Arith List.
From Verif Require Import Base LinAlg M_Text M_Poscar M_Bytes S_Bytes.
Import ListNotations.

(** The bytes begin with the UTF-8 of a text *)
Definition begins (t : text) (bytes : list N) : Prop := exists pre rest, bytes = (pre ++ rest)%list /\ utf8_text t pre.
(** What the attempt to go on after that text may raise *)
Definition coded (e : byte_exn) : Prop := e = UnicodeDecodeError \/ e = UnboundLocalError \/ exists m, e = Plain (InvalidFileException m).
(** The reader either raises so, or does what it would do with the result [r] *)
Definition usual {A} (b : bres A) (r : res A) : Prop := (exists e, b = BErr e /\ coded e) \/ b = plain r.
