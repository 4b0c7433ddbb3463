(** Specification vocabulary for the texts of models: C97. *)
From Coq Require Import String ZArith NArith Reals Bool Arith List.
From Verif Require Import Base LinAlg M_Validate M_StructUtils M_Symmetry M_Reference M_Interp M_Art M_Text S_Lattice S_Interp S_Art.
Import ListNotations.
Local Open Scope nat_scope.

(** What a model prints: how many degrees of freedom it has, of how many coordinates, how many
    are masked, and whether it is a dummy *)
Record summary := mkSummary { s_dofs : nat; s_coordinates : nat; s_masked : nat; s_dummy : bool }.
Definition masked_count (l : list bool) : nat := count_occ Bool.bool_dec l true.
Definition summary_of (m : imodel) : summary :=
  mkSummary (List.length (im_basis m)) (3 * List.length (rs_positions (im_ref m))) (masked_count (im_mask m)) (im_dummy m).

(** ANSI bold green, yellow, red *)
Inductive colour := Green | Yellow | Red.
Definition escape (c : colour) : text :=
  27%N :: match c with Green => txt "[1;32;49m" | Yellow => txt "[1;33;49m" | Red => txt "[1;31;49m" end.
(** "k/n" in colour [c] *)
Definition fraction (c : colour) (k n : nat) : text :=
  escape c ++ str_int (Z.of_nat k) ++ txt "/" ++ str_int (Z.of_nat n) ++ 27%N :: txt "[0m".
(** A text beginning "InterpolationModel with k/n degrees of freedom specified." *)
Definition begins_with (c : colour) (k n : nat) (t : text) : Prop :=
  exists rest, t = txt "InterpolationModel with " ++ fraction c k n ++ txt " degrees of freedom specified." ++ rest.
(** Complete; something missing; nothing specified, or more than there are coordinates *)
Definition colour_for (c : colour) (k n : nat) : Prop :=
  match c with Green => k = n | Yellow => 1 <= k < n | Red => (k = 0 /\ 0 < n) \/ n < k end.

(** No two atoms are equivalent. *)
Definition no_equivalent_atoms (r : refstruct) : Prop := rs_equiv r = seq 0 (List.length (rs_positions r)).
(** A row of the table of an ART model: atom, directions, "k/3", number of equivalent atoms *)
Definition art_row (show : V3 -> text) (m : imodel) (kv : nat * list nat) (dirs : list V3) (row : list text) : Prop :=
  selects (exceeds (/ 100000)%R) (map (fun b => nth (fst kv) b v0) (im_basis m)) dirs /\
  exists d c, colour_for c (List.length dirs) 3 /\
    row = [str_int (Z.of_nat (fst kv)); d; fraction c (List.length dirs) 3; str_int (Z.of_nat (List.length (snd kv)))] /\
    match dirs with
    | [] => d = []
    | [x] => d = show x
    | [x; y] => d = show x ++ txt ", " ++ show y
    | [x; y; z] => d = show x ++ txt ", " ++ show y ++ txt ", " ++ show z
    | _ => True
    end.
