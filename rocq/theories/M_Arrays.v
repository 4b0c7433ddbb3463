(** Model of ramannoodle/structure/utils.py on NumPy float arrays of any shape, with NumPy's
    broadcasting and matrix product.  Entries are [num]s; arithmetic is exact on finite numbers.
    Not modelled: arguments that are not arrays. *)
From Coq Require Import ZArith Reals Bool Arith List.
From Verif Require Import Base LinAlg M_Validate M_Text M_Poscar M_Outcar M_Vasprun M_Dataset M_StructUtils.
Import ListNotations.
Local Open Scope nat_scope.

(** ** NumPy *)
(** Index of the [k]-th entry in row-major order, and back *)
Fixpoint unravel (shape : list nat) (k : nat) : list nat :=
  match shape with [] => [] | _ :: s => k / prod_list s :: unravel s (k mod prod_list s) end.
Fixpoint ravel (shape idx : list nat) : nat :=
  match shape, idx with _ :: s, i :: idx' => i * prod_list s + ravel s idx' | _, _ => 0 end.
Definition get (a : narr) (idx : list nat) : num := nth (ravel (na_shape a) idx) (na_data a) NaN.
Definition tabulated (shape : list nat) (f : list nat -> num) : narr :=
  mkNarr shape (map (fun k => f (unravel shape k)) (seq 0 (prod_list shape))).

(** Broadcasting of shapes, last axis first; a missing axis counts as one of length 1 *)
Fixpoint bshape_rev (s t : list nat) : option (list nat) :=
  match s, t with
  | [], _ => Some t
  | _, [] => Some s
  | a :: s', b :: t' =>
      match bshape_rev s' t' with
      | Some r => if a =? b then Some (a :: r) else if a =? 1 then Some (b :: r) else if b =? 1 then Some (a :: r) else None
      | None => None
      end
  end.
Definition broadcast_shapes (s t : list nat) : option (list nat) := option_map (@rev nat) (bshape_rev (rev s) (rev t)).
(** Where the entry at [idx] of the result comes from *)
Definition source (shape idx : list nat) : list nat :=
  rev (map2 (fun d i => if d =? 1 then 0 else i) (rev shape) (rev idx)).
(** [a + b], [a - b], ...: ValueError when the shapes cannot be broadcast *)
Definition elementwise (f : num -> num -> num) (a b : narr) : res narr :=
  match broadcast_shapes (na_shape a) (na_shape b) with
  | None => Err ValueError
  | Some s => Ok (tabulated s (fun idx => f (get a (source (na_shape a) idx)) (get b (source (na_shape b) idx))))
  end.
(** [a @ r] for [a] of shape (n,3): [r] is one-dimensional, or a stack of matrices *)
Definition dot3 (a r : narr) (i : nat) (at_ : nat -> list nat) : num :=
  num_add (num_add (num_mul (get a [i; 0]) (get r (at_ 0))) (num_mul (get a [i; 1]) (get r (at_ 1)))) (num_mul (get a [i; 2]) (get r (at_ 2))).
Definition matmul (a r : narr) : res narr :=
  let n := hd 0 (na_shape a) in
  match rev (na_shape r) with
  | [] => Err ValueError
  | [k] => if k =? 3 then Ok (tabulated [n] (fun idx => dot3 a r (hd 0 idx) (fun l => [l]))) else Err ValueError
  | m :: k :: stack =>
      if k =? 3 then
        Ok (tabulated (rev stack ++ [n; m]) (fun idx =>
          match rev idx with j :: i :: b => dot3 a r i (fun l => rev b ++ [l; j]) | _ => NaN end))
      else Err ValueError
  end.
(** [x % 1] and [np.where(x % 1 > 0.5, x % 1 - 1, x % 1)]: NaN for NaN and infinities *)
Definition wrapd_num (x : num) : num := match x with Fin r => Fin (wrapd r) | _ => NaN end.
Definition map_entries (f : num -> num) (a : narr) : narr := mkNarr (na_shape a) (map f (na_data a)).

(** ** structure/utils.py *)
(** utils.py:13-29 *)
Definition apply_pbc_array (positions : narr) : narr := map_entries wrap_num positions.
(** utils.py:32-48 *)
Definition apply_pbc_displacement_array (displacement : narr) : narr := map_entries wrapd_num displacement.
(** utils.py:51-72 *)
Definition displace_positions_array (positions displacement : narr) : res narr :=
  let* s := elementwise num_add (apply_pbc_array positions) (apply_pbc_displacement_array displacement) in
  Ok (apply_pbc_array s).
(** exceptions.py:126-134 [verify_positions] *)
Definition verify_positions_array (a : narr) : res unit :=
  let* _ := verify_ndarray_shape (na_shape a) [None; Some 3] in
  if existsb (fun x => num_lt x 0 || num_gt x 1) (na_data a) then Err ValueError else Ok tt.
(** utils.py:75-107; every failure of the matrix product of arrays is a ValueError, which is
    raised again as a ValueError naming the rotation *)
Definition transform_positions_array (positions rotation translation : narr) : res narr :=
  let* _ := verify_positions_array positions in
  let* rotated := matmul (apply_pbc_array positions) rotation in
  displace_positions_array (apply_pbc_array rotated) translation.
(** utils.py:110-135 *)
Definition calc_displacement_array (positions_1 positions_2 : narr) : res narr :=
  let* d := elementwise num_sub (apply_pbc_array positions_2) (apply_pbc_array positions_1) in
  Ok (apply_pbc_displacement_array d).
