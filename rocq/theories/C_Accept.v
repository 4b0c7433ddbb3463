(** C74 (which arrays the constructors take) and C78 (atomic numbers of a dataset) *)
From Coq Require Import String ZArith Reals Bool List.
From Verif Require Import Base LinAlg M_Validate M_Text M_Poscar M_Dataset M_Int32 M_Alias S_Accept P_Int32 P_Accept P_Alias4.
Import ListNotations.

(** A constructor succeeds exactly when the shapes of what it is given match: whatever else
    the caller has done before, and whatever the arrays share with others. *)
Theorem C74_accepted k s o : constructs o -> (exists e, perform k s o = Ok e) <-> acceptable k s o.
Proof. exact (f_acceptable k s o). Qed.
Print Assumptions C74_accepted.

Example C74_accepted_nonvacuous :
  acceptable ex_kernel ex_world (MakePhonons 0 1 2) /\ ~ acceptable ex_kernel ex_world (MakePhonons 0 1 4).
Proof.
  split.
  - cbn. do 5 eexists. unfold holds_arr. repeat split; try (eexists; reflexivity); reflexivity.
  - cbn. intros (r & w & d & n & m & _ & _ & [g H] & _ & _ & S). cbn in H. injection H as <- _. discriminate S.
Qed.

(** Atomic numbers that fit in 32 bits are kept, so everything said of datasets holds. *)
Theorem C78_numbers_fit cast lattice numbers positions pol :
  Forall (fun z => - 2 ^ 31 <= z < 2 ^ 31)%Z numbers ->
  dataset_new_ints cast lattice numbers positions pol = dataset_new cast lattice numbers positions pol.
Proof. exact (f_numbers_fit cast lattice numbers positions pol). Qed.
Print Assumptions C78_numbers_fit.

(** Any others are refused beyond 64 bits and replaced by the 32-bit number congruent to them
    otherwise; the list comes back unchanged only if there is a sample and all its members fit. *)
Theorem C78_numbers cast lattice numbers positions pol :
  match dataset_new_ints cast lattice numbers positions pol with
  | Ok d => (exists d0, dataset_new cast lattice numbers positions pol = Ok d0)
            /\ Forall (fun z => - 2 ^ 63 <= z < 2 ^ 63)%Z numbers
            /\ Forall2 (fun z w => - 2 ^ 31 <= w < 2 ^ 31 /\ exists k, w = z + k * 2 ^ 32)%Z numbers (ds_numbers d)
            /\ (atomic_numbers d = Ok numbers <->
                num_samples d <> O /\ Forall (fun z => - 2 ^ 31 <= z < 2 ^ 31)%Z numbers)
  | Err e => dataset_new cast lattice numbers positions pol = Err e \/
             (exists d0, dataset_new cast lattice numbers positions pol = Ok d0) /\ e = RuntimeError
             /\ Exists (fun z => z < - 2 ^ 63 \/ 2 ^ 63 <= z)%Z numbers
  end.
Proof. exact (f_numbers_outcome cast lattice numbers positions pol). Qed.
Print Assumptions C78_numbers.

(** So different atoms can silently become the same dataset. *)
Theorem C78_numbers_refuted :
  exists lattice n1 n2 positions pol d, n1 <> n2 /\
    dataset_new_ints (fun x => x) lattice n1 positions pol = Ok d /\
    dataset_new_ints (fun x => x) lattice n2 positions pol = Ok d.
Proof. exact f_numbers_clash. Qed.
Print Assumptions C78_numbers_refuted.

Example C78_numbers_nonvacuous :
  map to_int32 [8; 22; 4294967297; 2147483648; -1]%Z = [8; 22; 1; -2147483648; -1]%Z
  /\ fits64 9223372036854775808 = false.
Proof. split; reflexivity. Qed.
