(** Specification vocabulary for any Python values given to the structure utilities and as paths: C98. *)
From Coq Require Import String ZArith NArith Reals Bool Arith List.
From Verif Require Import Base LinAlg M_Text M_Poscar M_Args M_Values.
Import ListNotations.
Local Open Scope nat_scope.

(** [v] can be calculated with: it is an array, or a number, which counts as an array without
    dimensions *)
Definition numeric (v : pyval) (a : narr) : Prop :=
  v = VArray (na_shape a) (na_data a) \/ exists t x, v = VNumber t x /\ a = mkNarr [] [x].
Definition not_numeric (v : pyval) : Prop := (forall a, ~ numeric v a) /\ (forall s d, v <> VTensor s d).

(** A path, and what it says *)
Definition names_path (p : pathval) (s : text) : Prop := p = PStr s \/ p = PPath s.
