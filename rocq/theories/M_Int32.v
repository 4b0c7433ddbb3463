(** Model of what PyTorch's integer types do to the atomic numbers of a
    [PolarizabilityDataset] (ramannoodle/dataset/torch/_dataset.py:103-104): the list becomes
    an int64 tensor, which raises when an entry does not fit, and is then cut down to int32,
    which keeps the low 32 bits. *)
From Coq Require Import String ZArith Bool List.
From Verif Require Import Base LinAlg M_Validate M_Text M_Poscar M_Dataset.
Import ListNotations.
Local Open Scope Z_scope.

(** The entries [torch.tensor] can take from a list of ints *)
Definition fits64 (z : Z) : bool := (- 2 ^ 63 <=? z) && (z <? 2 ^ 63).
(** [.type(torch.int)] of an int64 entry *)
Definition to_int32 (z : Z) : Z :=
  let low := z mod 2 ^ 32 in if low <? 2 ^ 31 then low else low - 2 ^ 32.

(** _dataset.py:87-113 [PolarizabilityDataset.__init__] for any list of ints: the shapes are
    verified first, and nothing can fail after the numbers have been converted *)
Definition dataset_new_ints (cast : num -> num) (lattice : narr) (numbers : list Z) (positions polarizabilities : narr)
  : res dataset :=
  let* d := dataset_new cast lattice numbers positions polarizabilities in
  if forallb fits64 numbers
  then Ok (mkDataset (ds_lattice d) (map to_int32 numbers) (ds_positions d) (ds_raw d) (ds_scaled d))
  else Err RuntimeError.

(** _dataset.py:125-134 [atomic_numbers]: the first sample's numbers, which do not exist when
    there is no sample *)
Definition atomic_numbers (d : dataset) : res (list Z) :=
  match num_samples d with O => Err IndexError | S _ => Ok (ds_numbers d) end.
