(** Model of the argument validators in ramannoodle/exceptions.py. *)
From Coq Require Import ZArith Reals List Arith Bool.
From Verif Require Import Base LinAlg.
Import ListNotations.

(** A NumPy float array: shape plus row-major entries.  An entry is [None] when
    it is NaN (infinities are not represented). *)
Record nd := mkNd { nd_shape : list nat; nd_data : list (option R) }.

Definition prod_list (l : list nat) : nat := fold_right Nat.mul 1 l.

(** exceptions.py:86-105 [verify_ndarray_shape], on the shape only.
    [zip(..., strict=True)] cannot fail here because ranks are equal. *)
Fixpoint dims_match (dims : list nat) (spec : list (option nat)) : bool :=
  match dims, spec with
  | d1 :: dims', d2 :: spec' =>
      match d2 with
      | Some d => if Nat.eqb d1 d then dims_match dims' spec' else false
      | None => dims_match dims' spec'
      end
  | _, _ => true
  end.

Definition verify_ndarray_shape (dims : list nat) (spec : list (option nat)) : res unit :=
  if negb (Nat.eqb (length spec) (length dims)) then Err ValueError
  else if dims_match dims spec then Ok tt else Err ValueError.

(** Python's [is] on ints in CPython: small ints (-5..256) are shared objects;
    two larger ints created independently are distinct objects.
    Used by exceptions.py:122 ([len(array) is not length]). *)
Definition int_is (a b : Z) : bool :=
  ((a =? b) && ((-5 <=? a) && (a <=? 256)))%Z.

(** exceptions.py:108-123 [verify_list_len] for a list of length [len]; the
    required length is [None] or an int object created independently of
    [len(array)] (true of every call site: a fresh [len(...)]). *)
Definition verify_list_len (len : nat) (length : option nat) : res unit :=
  match length with
  | None => Ok tt
  | Some n => if int_is (Z.of_nat len) (Z.of_nat n) then Ok tt else Err ValueError
  end.

(** exceptions.py:126-134 [verify_positions]: NaN entries compare False. *)
Definition out_of_range (x : option R) : bool :=
  match x with Some v => orb (Rltb v 0) (Rltb 1 v) | None => false end.

Definition verify_positions (a : nd) : res unit :=
  match verify_ndarray_shape (nd_shape a) [None; Some 3] with
  | Err e => Err e
  | Ok _ => if existsb out_of_range (nd_data a) then Err ValueError else Ok tt
  end.

(** Rows of a NaN-free (N,3) array, and the array made of given rows. *)
Definition nd_of_rows (l : list V3) : nd :=
  mkNd [length l; 3] (flat_map (fun v => [Some (vx v); Some (vy v); Some (vz v)]) l).
