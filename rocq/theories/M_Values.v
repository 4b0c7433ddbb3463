(** Model of ramannoodle/structure/utils.py and of the path arguments of the readers
    (io/_utils.py) when the caller passes any Python value.  Values are those of M_Args, arrays
    those of M_Arrays.

    Simplified: PyTorch tensors are left out (mixing them with arrays is decided by PyTorch; the
    definitions treat them like other objects, the theorems exclude them);
    [VOther] objects have no arithmetic. *)
From Coq Require Import String ZArith NArith Reals Bool Arith List.
From Verif Require Import Base LinAlg M_Validate M_Text M_Poscar M_Outcar M_Vasprun M_Dataset M_Args M_Arrays.
Import ListNotations.
Local Open Scope nat_scope.

Section Values.
(** see M_Args *)
Variable method_text : text.
(** NumPy's text when shapes cannot be broadcast *)
Variable no_broadcast : list nat -> list nat -> text.
(** the text of [ValueError] when a string is not a valid format for [%]; None: another outcome *)
Variable bad_format : text -> option text.
(** what NumPy makes of a list or another object that stands to the right of [@]: an array;
    TypeError if the entries are not numbers, ValueError if the lengths differ *)
Variable np_array : pyval -> res narr.
(** the text of AttributeError *)
Variable no_shape : pyval -> text.

(** A number counts as an array without dimensions *)
Definition of_narr (a : narr) : pyval := VArray (na_shape a) (na_data a).

(** structure/utils.py:13-29 [apply_pbc]: [//] of a str, list or other object is a TypeError *)
Definition apply_pbc_v (positions : pyval) : outcome pyval :=
  match positions with
  | VNumber t x => Done (VNumber (if teqb t (txt "bool") then txt "int" else t) (wrap_num x))
  | VArray s d => Done (of_narr (apply_pbc_array (mkNarr s d)))
  | _ => raise (type_error (txt "positions") positions (txt "ndarray"))
  end.

(** structure/utils.py:32-48 [apply_pbc_displacement]: [np.where] returns an array.  For a str,
    [%] formats: the result cannot be compared with 0.5 (TypeError), unless the format is
    malformed, a ValueError that no clause catches. *)
Definition apply_pbc_displacement_v (displacement : pyval) : outcome pyval :=
  match displacement with
  | VNumber _ x => Done (of_narr (apply_pbc_displacement_array (mkNarr [] [x])))
  | VArray s d => Done (of_narr (apply_pbc_displacement_array (mkNarr s d)))
  | VStr s => match bad_format s with
              | Some m => Raise ValueError m
              | None => raise (type_error (txt "displacement") displacement (txt "ndarray"))
              end
  | _ => raise (type_error (txt "displacement") displacement (txt "ndarray"))
  end.

(** [a + b] and [a - b] of numbers and arrays *)
Definition operand (v : pyval) : narr :=
  match v with VNumber _ x => mkNarr [] [x] | VArray s d => mkNarr s d | _ => mkNarr [] [NaN] end.
Definition arithmetic (f : num -> num -> num) (a b : pyval) : outcome pyval :=
  match elementwise f (operand a) (operand b) with
  | Ok c => Done (of_narr c)
  | Err _ => Raise ValueError (no_broadcast (na_shape (operand a)) (na_shape (operand b)))
  end.

(** structure/utils.py:51-72 [displace_positions] *)
Definition displace_positions_v (positions displacement : pyval) : outcome pyval :=
  let! positions := apply_pbc_v positions in
  let! displacement := apply_pbc_displacement_v displacement in
  let! moved := arithmetic num_add positions displacement in
  apply_pbc_v moved.

(** structure/utils.py:110-135 [calc_displacement] *)
Definition calc_displacement_v (positions_1 positions_2 : pyval) : outcome pyval :=
  let! positions_1 := apply_pbc_v positions_1 in
  let! positions_2 := apply_pbc_v positions_2 in
  let! d := arithmetic num_sub positions_2 positions_1 in
  apply_pbc_displacement_v d.

(** [positions @ rotation] for an array on the left *)
Definition product_v (positions : narr) (rotation : pyval) : res narr :=
  match rotation with
  | VArray s d => matmul positions (mkNarr s d)
  | VNumber _ _ => Err ValueError
  | VStr _ => Err TypeError
  | _ => let* r := np_array rotation in matmul positions r
  end.

(** structure/utils.py:75-107 [transform_positions]; [get_shape_error] reads [rotation.shape] *)
Definition transform_positions_v (positions rotation translation : pyval) : outcome pyval :=
  let! _ := verify_positions_v method_text (txt "positions") positions in
  let! positions := apply_pbc_v positions in
  let! rotated :=
    match product_v (operand positions) rotation with
    | Ok r => Done (of_narr r)
    | Err TypeError => raise (type_error (txt "rotation") rotation (txt "ndarray"))
    | Err _ => match shape_of rotation with
               | Some dims => raise (shape_error method_text (txt "rotation") dims (txt "(3,3)"))
               | None => Raise AttributeError (no_shape rotation)
               end
    end in
  let! rotated := apply_pbc_v rotated in
  displace_positions_v rotated translation.

(** ** Paths *)
(** A value given as a path: a str, an object of pathlib (or any [os.PathLike]) with its text, or
    something else *)
Inductive pathval := PStr (s : text) | PPath (s : text) | PNot (v : pyval).
(** [f"{value}"] *)
Variable show : pyval -> text.

(** io/_utils.py:36-44 [pathify]; [Path(value)] raises TypeError for anything else *)
Definition pathify (p : pathval) : outcome text :=
  match p with
  | PStr s | PPath s => Done s
  | PNot v => Raise TypeError (show v ++ txt " cannot be resolved as a filepath")
  end.

(** The loop of io/_utils.py:56-57 *)
Fixpoint pathify_items (items : list pathval) : outcome (list text) :=
  match items with
  | [] => Done []
  | item :: rest => let! p := pathify item in let! ps := pathify_items rest in Done (p :: ps)
  end.

(** io/_utils.py:47-59 [pathify_as_list] *)
Inductive patharg := POne (p : pathval) | PList (l : list pathval).
Definition pathify_as_list (filepaths : patharg) : outcome (list text) :=
  match filepaths with
  | PList items =>
      if length items =? 0 then Raise ValueError (txt "filepaths is empty") else pathify_items items
  | POne p => let! p := pathify p in Done [p]
  end.
End Values.
