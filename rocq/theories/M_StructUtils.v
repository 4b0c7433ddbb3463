(** Model of ramannoodle/structure/utils.py over exact reals.
    An (N,3) array is a [list V3]; NumPy broadcasting along the first axis is
    modelled ([bcast2]).  Not modelled: the TypeError branches. *)
From Coq Require Import ZArith Reals List.
From Verif Require Import Base LinAlg M_Validate.
Import ListNotations.
Local Open Scope R_scope.

(** NumPy [x // 1]: floor.  [up x] is the integer with [x < up x <= x + 1]. *)
Definition rfloor (x : R) : Z := (up x - 1)%Z.

(** NumPy [x % 1] for a positive modulus: [x - floor x]. *)
Definition rmod1 (x : R) : R := x - IZR (rfloor x).

(** structure/utils.py:13-29 [apply_pbc], one coordinate: [x - x // 1] *)
Definition wrap (x : R) : R := x - IZR (rfloor x).
Definition apply_pbc (p : list V3) : list V3 := map (vmap wrap) p.

(** structure/utils.py:32-48 [apply_pbc_displacement], one coordinate:
    [np.where(x % 1 > 0.5, x % 1 - 1, x % 1)] *)
Definition wrapd (x : R) : R := if Rltb (/2) (rmod1 x) then rmod1 x - 1 else rmod1 x.
Definition apply_pbc_displacement (d : list V3) : list V3 := map (vmap wrapd) d.

(** structure/utils.py:51-72 [displace_positions] *)
Definition displace_positions (p d : list V3) : res (list V3) :=
  let p' := apply_pbc p in
  let d' := apply_pbc_displacement d in
  let* s := bcast2 vadd p' d' in
  Ok (apply_pbc s).

(** Coordinates accepted by [verify_positions] (exceptions.py:133), for rows. *)
Definition coord_ok (x : R) : bool := negb (orb (Rltb x 0) (Rltb 1 x)).
Definition positions_ok (p : list V3) : bool := forallb (vallb coord_ok) p.

(** structure/utils.py:75-107 [transform_positions] for an (N,3) array, a (3,3)
    rotation and a (3,) translation (broadcast over the rows). *)
Definition transform_positions (p : list V3) (rot : M3) (t : V3) : res (list V3) :=
  if positions_ok p then
    let p' := apply_pbc p in
    let rotated := apply_pbc (rows_mul p' rot) in
    displace_positions rotated [t]
  else Err ValueError.

(** structure/utils.py:110-135 [calc_displacement] *)
Definition calc_displacement (p1 p2 : list V3) : res (list V3) :=
  let p1' := apply_pbc p1 in
  let p2' := apply_pbc p2 in
  let* d := bcast2 vsub p2' p1' in
  Ok (apply_pbc_displacement d).

(** [transform_positions] on an arbitrary NumPy array: the [verify_positions]
    check (exceptions.py:126-134), then the row computation.  Rows of an array
    that passed the shape check; NaN entries are not followed further (the
    result is [None], an array containing NaN). *)
Fixpoint rows_of (l : list (option R)) : option (list V3) :=
  match l with
  | Some x :: Some y :: Some z :: l' =>
      match rows_of l' with Some r => Some (mkV x y z :: r) | None => None end
  | [] => Some []
  | _ => None
  end.

Definition transform_positions_nd (a : nd) (rot : M3) (t : V3) : res (option (list V3)) :=
  let* _ := verify_positions a in
  match rows_of (nd_data a) with
  | Some p => rmap Some (transform_positions p rot t)
  | None => Ok None
  end.
