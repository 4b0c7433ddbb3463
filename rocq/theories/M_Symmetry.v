(** Model of ramannoodle/structure/_symmetry_utils.py.
    Vectors are flat arrays; an array whose entries are all NaN (the outcome of
    dividing a zero vector by its norm) is the separate value [Nan n]. *)
From Coq Require Import ZArith Reals List Bool.
From Verif Require Import Base LinAlg.
Import ListNotations.
Local Open Scope R_scope.

(** An array with first dimension [n]: finite entries, or every entry NaN. *)
Inductive arr (A : Type) : Type :=
| Fin (l : list A)
| Nan (n : nat).
Arguments Fin {A} l.
Arguments Nan {A} n.

Definition arr_len {A} (a : arr A) : nat := match a with Fin l => length l | Nan n => n end.

Definition flatten_rows (l : list V3) : list R := flat_map (fun v => [vx v; vy v; vz v]) l.
(** [ndarray.flatten] of an (N,3) array *)
Definition flatten (a : arr V3) : arr R :=
  match a with Fin l => Fin (flatten_rows l) | Nan n => Nan (3 * n) end.

Definition ldot (a b : list R) : R := rsum (map2 Rmult a b).
Definition lnorm2 (a : list R) : R := ldot a a.
(** [np.linalg.norm] of a flat vector *)
Definition lnorm (a : list R) : R := sqrt (lnorm2 a).

(** [v / np.linalg.norm(v)]: a zero vector becomes NaN everywhere.
    Dividing an empty array is empty. *)
Definition normalise (a : arr R) : arr R :=
  match a with
  | Fin [] => Fin []
  | Fin l => if Reqb (lnorm l) 0 then Nan (length l) else Fin (map (fun x => x / lnorm l) l)
  | Nan n => Nan n
  end.

(** [np.dot] of 1-D arrays: ValueError on different lengths; [None] is NaN. *)
Definition npdot (a b : arr R) : res (option R) :=
  if Nat.eqb (arr_len a) (arr_len b) then
    match a, b with
    | Fin l, Fin m => Ok (Some (ldot l m))
    | _, _ => Ok None
    end
  else Err ValueError.

(** [np.isclose(a, b, atol=...)] with the default rtol 1e-5:
    [|a - b| <= atol + rtol * |b|]; False for NaN. *)
Definition rtol : R := / 100000.
Definition atol0 : R := / 100000000.
Definition isclose_at (atol a b : R) : bool := Rleb (Rabs (a - b)) (atol + rtol * Rabs b).
Definition isclose (a b : R) : bool := isclose_at atol0 a b.
Definition isclose_n (a : option R) (b : R) : bool :=
  match a with Some x => isclose x b | None => false end.

(** _symmetry_utils.py:13-39 [are_collinear] *)
Definition are_collinear (v w : arr R) : res bool :=
  let v' := normalise v in
  let w' := normalise w in
  let* d := npdot v' w' in
  Ok (isclose_n d 1 || isclose_n d (-1)).

(** Loop shared by the three scans: the index (counted from [k]) of the first
    element for which [test] holds, -1 if none; exceptions propagate. *)
Fixpoint scan_from {A} (test : A -> res bool) (k : nat) (l : list A) : res Z :=
  match l with
  | [] => Ok (-1)%Z
  | a :: l' => let* b := test a in if b then Ok (Z.of_nat k) else scan_from test (S k) l'
  end.

(** _symmetry_utils.py:42-75 [is_orthogonal_to_all] (line 72 is the test).
    Arguments are given flattened (line 72 flattens after normalising, which is
    the same because the norm does not depend on the shape). *)
Definition non_orthogonal (v' : arr R) (w : arr R) : res bool :=
  let* d := npdot v' (normalise w) in
  Ok (negb (match d with Some x => isclose (x + 1) 1 | None => false end)).

Definition is_orthogonal_to_all (v : arr R) (ws : list (arr R)) : res Z :=
  let v' := normalise v in
  scan_from (non_orthogonal v') 0 ws.

(** _symmetry_utils.py:78-101 [is_collinear_with_all] *)
Definition is_collinear_with_all (v : arr R) (ws : list (arr R)) : res Z :=
  scan_from (fun w => rmap negb (are_collinear v w)) 0 ws.

(** _symmetry_utils.py:104-127 [is_non_collinear_with_all] *)
Definition is_non_collinear_with_all (v : arr R) (ws : list (arr R)) : res Z :=
  scan_from (are_collinear v) 0 ws.
