(** Model of the texts of models: [__repr__] of ramannoodle/pmodel/_interpolation.py and
    ramannoodle/pmodel/_art.py.  [np.array2string] and [tabulate] are parameters. *)
From Coq Require Import String ZArith NArith Reals Bool Arith List.
From Verif Require Import Base LinAlg M_Validate M_StructUtils M_Symmetry M_Reference M_Interp M_Art M_Text.
Import ListNotations.
Local Open Scope nat_scope.

(** constants.py:252-261 [ANSICOLORS] *)
Definition OK_GREEN : text := 27%N :: txt "[1;32;49m".
Definition WARNING_YELLOW : text := 27%N :: txt "[1;33;49m".
Definition ERROR_RED : text := 27%N :: txt "[1;31;49m".
Definition ANSI_END : text := 27%N :: txt "[0m".

(** [f"{n}"] for a count *)
Definition str_nat (n : nat) : text := str_int (Z.of_nat n).
(** [np.sum] of a boolean array *)
Definition np_sum_bool (l : list bool) : nat := List.length (filter (fun b => b) l).

(** _interpolation.py:728-735, _art.py:391-399: [what] is "degrees of freedom" or "atomic Raman tensors" *)
Definition attention (what : text) (m : imodel) : text :=
  let num_masked := np_sum_bool (im_mask m) in
  let masked :=
    if 0 <? num_masked
    then NL :: 32%N :: WARNING_YELLOW ++ 32%N :: txt "ATTENTION: " ++ str_nat num_masked ++ txt "/" ++ str_nat (List.length (im_basis m))
         ++ txt " " ++ what ++ txt " are masked." ++ 32%N :: ANSI_END
    else [] in
  let dummy :=
    if im_dummy m
    then NL :: 32%N :: WARNING_YELLOW ++ 32%N :: txt "ATTENTION: this is a dummy model." ++ 32%N :: ANSI_END
    else [] in
  masked ++ dummy.

(** _interpolation.py:714-737 [InterpolationModel.__repr__] *)
Definition interpolation_repr (m : imodel) : text :=
  let total_dofs := 3 * List.length (rs_positions (im_ref m)) in
  let specified_dofs := List.length (im_basis m) in
  let core := str_nat specified_dofs ++ txt "/" ++ str_nat total_dofs in
  let core :=
    if specified_dofs =? total_dofs then OK_GREEN ++ core ++ ANSI_END
    else if (1 <=? specified_dofs) && (specified_dofs <? total_dofs) then WARNING_YELLOW ++ core ++ ANSI_END
    else ERROR_RED ++ core ++ ANSI_END in
  txt "InterpolationModel with " ++ core ++ txt " degrees of freedom specified." ++ attention (txt "degrees of freedom") m.

(** _art.py:38-45 [_get_specified_str] *)
Definition specified_str (num_specified : nat) : text :=
  let core := str_nat num_specified ++ txt "/3" in
  if num_specified =? 3 then OK_GREEN ++ core ++ ANSI_END
  else if (1 <=? num_specified) && (num_specified <=? 2) then WARNING_YELLOW ++ core ++ ANSI_END
  else ERROR_RED ++ core ++ ANSI_END.

(** [", ".join(l)] *)
Fixpoint join_comma (l : list text) : text :=
  match l with
  | [] => []
  | [x] => x
  | x :: rest => x ++ txt ", " ++ join_comma rest
  end.

Section Art.
Variable set_list : list Z -> list Z.
(** [np.array2string(direction, precision=5, suppress_small=True, sign="+")] *)
Variable array2string : V3 -> text.
(** [tabulate(table, headers="firstrow", tablefmt="rounded_outline")] *)
Variable tabulate : list (list text) -> text.

(** _art.py:28-35 [_get_directions_str] *)
Definition directions_str (directions : list V3) : text := join_comma (map array2string directions).

(** _art.py:375-388: the table of [ARTModel.__repr__] *)
Definition art_table (m : imodel) : res (list (list text)) :=
  let* tuples := get_specification_tuples set_list m in
  Ok ([txt "Atom index"; txt "Directions"; txt "Specified"; txt "Equivalent atoms"] ::
      map (fun t : nat * list nat * list V3 =>
             let '(atom_index, equivalent_atom_indexes, cart_directions) := t in
             [str_nat atom_index; directions_str cart_directions; specified_str (List.length cart_directions);
              str_nat (List.length equivalent_atom_indexes)]) tuples).

(** _art.py:375-401 [ARTModel.__repr__] *)
Definition art_repr (m : imodel) : res text :=
  let* table := art_table m in
  Ok (tabulate table ++ attention (txt "atomic Raman tensors") m).
End Art.
