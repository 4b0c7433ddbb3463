(** Specification vocabulary for the generic readers on files of bytes. *)
From Coq Require Import String ZArith NArith Reals Bool Arith List.
From Verif Require Import Base LinAlg M_Text M_Poscar M_Outcar M_Files M_Generic M_Bytes M_GenericBytes S_Bytes S_BytesOutcar.
Import ListNotations.

(** The path holds the UTF-8 of a text, or nothing that can be read *)
Definition holds (x : entry) (b : bentry) : Prop :=
  match x, b with
  | Absent, BAbsent => True
  | Blocked e, BBlocked e' => e = e'
  | Present t, BPresent blocks => utf8_text t (concat blocks)
  | _, _ => False
  end.
(** [r] is returned by a reader for bytes only if the reader for texts returns it *)
Definition backed {A} (bytes : bgres A) (texts : gres A) : Prop := forall a, bytes = BG (GOk a) -> texts = GOk a.
