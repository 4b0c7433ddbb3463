(** Model of what becomes of floats in the list of atomic numbers of a [PolarizabilityDataset]
    (ramannoodle/dataset/torch/_dataset.py:103-104).  One float in the list makes
    [torch.tensor] use the default floating-point type, to which every entry is rounded
    ([cast]); [.type(torch.int)] then drops the digits after the point.  What that does to NaN,
    to infinities and to numbers beyond 32 bits depends on the machine ([undefined]).
    Simplification: ints beside floats fit in 64 bits. *)
From Coq Require Import String ZArith Reals Bool List.
From Verif Require Import Base LinAlg M_Validate M_Text M_Poscar M_Dataset M_Int32.
Import ListNotations.

(** An entry of the list *)
Inductive number := Whole (z : Z) | Float (x : num).
Definition value (n : number) : num := match n with Whole z => Fin (IZR z) | Float x => x end.
(** The list, if all of its entries are ints *)
Fixpoint wholes (l : list number) : option (list Z) :=
  match l with
  | [] => Some []
  | Whole z :: l' => option_map (cons z) (wholes l')
  | Float _ :: _ => None
  end.
(** [.type(torch.int)] of a float: rounded towards zero *)
Definition truncated (undefined : num -> Z) (x : num) : Z :=
  match x with
  | Fin r =>
      let t := if Rle_dec 0 r then Int_part r else Z.opp (Int_part (- r)) in
      if ((- 2 ^ 31 <=? t) && (t <? 2 ^ 31))%Z then t else undefined x
  | _ => undefined x
  end.

(** _dataset.py:87-113 [PolarizabilityDataset.__init__] for any list of ints and floats *)
Definition dataset_new_any (cast : num -> num) (undefined : num -> Z) (lattice : narr) (numbers : list number) (positions polarizabilities : narr)
  : res dataset :=
  match wholes numbers with
  | Some ints => dataset_new_ints cast lattice ints positions polarizabilities
  | None => dataset_new cast lattice (map (fun n => truncated undefined (cast (value n))) numbers) positions polarizabilities
  end.
