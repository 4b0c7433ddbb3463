(** Specification vocabulary for arrays of any shape: broadcasting and matrix products. *)
From Coq Require Import ZArith Reals Bool Arith List.
From Verif Require Import Base LinAlg M_Validate M_Text M_Poscar S_Lattice S_Dataset.
Import ListNotations.
Local Open Scope nat_scope.

(** The length of the [k]-th axis counted from the last; missing axes have length 1 *)
Definition axis (shape : list nat) (k : nat) : nat := nth k (rev shape) 1.
(** NumPy's rule: axes are matched from the last; two lengths agree or one of them is 1 *)
Definition broadcasts (s t out : list nat) : Prop :=
  List.length out = Nat.max (List.length s) (List.length t) /\
  forall k, k < List.length out ->
    (axis s k = axis t k \/ axis s k = 1 \/ axis t k = 1) /\
    axis out k = if axis s k =? 1 then axis t k else axis s k.
(** The index [i] of an array of shape [s] that supplies the entry at [idx] of a larger one *)
Definition supplies (s i idx : list nat) : Prop :=
  List.length i = List.length s /\
  forall k, k < List.length s -> nth k (rev i) 0 = if axis s k =? 1 then 0 else nth k (rev idx) 0.
(** Every entry of [c] is related to the entries of [a] and [b] that supply it *)
Definition combined (rel : num -> num -> num -> Prop) (a b c : narr) : Prop :=
  narr_wf c /\ broadcasts (na_shape a) (na_shape b) (na_shape c) /\
  forall idx, Forall2 lt idx (na_shape c) ->
    exists i j x y z, supplies (na_shape a) i idx /\ supplies (na_shape b) j idx /\
      entry a i x /\ entry b j y /\ entry c idx z /\ rel x y z.
(** One coordinate: wrapped, displaced, measured; infinities and NaN give NaN *)
Definition wrapped_to (image : R -> R -> Prop) (x z : num) : Prop :=
  match x with Fin a => exists r, z = Fin r /\ image a r | _ => z = NaN end.
Definition displaced_to (x d z : num) : Prop :=
  match x, d with Fin a, Fin b => exists r, z = Fin r /\ cell_image (a + b) r | _, _ => z = NaN end.
Definition measured_to (x y z : num) : Prop :=
  match x, y with Fin a, Fin b => exists r, z = Fin r /\ half_image (b - a) r | _, _ => z = NaN end.

(** The shape of the product of an (n,3) array with an array of the given shape *)
Inductive product_shape (n : nat) : list nat -> list nat -> Prop :=
| product_vector : product_shape n [3] [n]
| product_matrices b m : product_shape n (b ++ [3; m]) (b ++ [n; m]).
(** Its entry at [idx] is row [i] of the left factor times the entries at [at_ 0], [at_ 1], [at_ 2] of the right one *)
Inductive product_index : list nat -> list nat -> nat -> (nat -> list nat) -> Prop :=
| index_vector i : product_index [3] [i] i (fun l => [l])
| index_matrices b m c i j : List.length c = List.length b -> product_index (b ++ [3; m]) (c ++ [i; j]) i (fun l => c ++ [l; j]).
Definition finite_array (a : narr) : Prop := Forall (fun x => exists r, x = Fin r) (na_data a).
Definition within_cell (a : narr) : Prop := Forall (fun x => match x with Fin r => (0 <= r <= 1)%R | Inf _ => False | NaN => True end) (na_data a).
(** [y] is the entry at [idx] of the product of the positions, moved into the cell, with [r] *)
Definition product_entry (p r : narr) (idx : list nat) (y : R) : Prop :=
  exists i at_ a b, product_index (na_shape r) idx i at_ /\
    (forall l, l < 3 -> exists x, entry p [i; l] (Fin x) /\ cell_image x (a l)) /\
    (forall l, l < 3 -> entry r (at_ l) (Fin (b l))) /\
    y = (a 0%nat * b 0%nat + a 1%nat * b 1%nat + a 2%nat * b 2%nat)%R.
(** What transform_positions accepts *)
Definition accepted (p r t : narr) : Prop :=
  exists n s out, na_shape p = [n; 3] /\ within_cell p /\ product_shape n (na_shape r) s /\ broadcasts s (na_shape t) out.
(** [z] is the shortest image of the displacement [y] of a finite coordinate *)
Definition shortest_to (x y z : num) : Prop :=
  match x, y with Fin _, Fin b => exists r, z = Fin r /\ half_image b r | _, _ => z = NaN end.
(** [z] is the image in the cell of the coordinate [y], measured from a finite coordinate *)
Definition image_to (x y z : num) : Prop :=
  match x, y with Fin _, Fin b => exists r, z = Fin r /\ cell_image b r | _, _ => z = NaN end.
