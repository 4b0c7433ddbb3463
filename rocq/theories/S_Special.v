(** Specification vocabulary for calls with numbers that are NaN or infinite.  The model
    functions used are record projections and the embeddings of finite numbers. *)
From Coq Require Import String ZArith Reals Bool Arith List.
From Verif Require Import Base LinAlg M_Validate M_Text M_Poscar M_Dataset M_StructUtils M_Symmetry M_Reference
  M_Interp M_Art M_Special S_Interp.
Import ListNotations.
Local Open Scope R_scope.

(** NaN or an infinity *)
Definition not_finite (x : num) : Prop := match x with FinN _ => False | _ => True end.
Definition row_not_finite (v : n3) : Prop := not_finite (nx v) \/ not_finite (ny v) \/ not_finite (nz v).
Definition tensor_not_finite (t : nmat) : Prop := row_not_finite (q0 t) \/ row_not_finite (q1 t) \/ row_not_finite (q2 t).

(** The model [m] of M_Interp.v, whose numbers are all finite *)
Definition of_model (m : imodel) : nmodel :=
  mkNM (im_ref m) (fin_mat (im_refpol m)) (im_dummy m) (map FinA (im_basis m)) (im_interp m) (im_mask m).

(** An array or a call all of whose numbers are finite *)
Definition fin_arr (a : rarr) : narr := mkNarr (ra_shape a) (map FinN (ra_data a)).
Definition fin_reads (l : reads) : nreads := map (rmap (fun pp => (map fin3 (fst pp), fin_mat (snd pp)))) l.
Definition fin_op (o : aop) : nop :=
  match o with
  | OpBase (OpAddDof c a p k i) => NAddDof (map fin3 c) (fin_arr a) (fin_arr p) k i
  | OpBase (OpAddFiles r k) => NAddFiles (fin_reads r) k
  | OpBase (OpAddPymatgen ps p k) => NAddPymatgen (map (map fin3) ps) (fin_arr p) k
  | OpBase (OpSetMask sh v) => NSetMask sh v
  | OpBase OpUnmask => NUnmask
  | OpArt i d a p => NArt i (map FinN d) (fin_arr a) (fin_arr p)
  | OpArtFiles r => NArtFiles (fin_reads r)
  | OpArtPymatgen ps p => NArtPymatgen (map (map fin3) ps) (map fin_mat p)
  end.
(** What M_Interp.v and M_Art.v say about such a call *)
Definition exact_op (art : bool) (o : aop) : act unit :=
  if art then run_aop o else match o with OpBase o => run_op o | _ => raise AttributeError end.

(** Every array has as many entries as its shape says. *)
Definition narr_wf (a : narr) : Prop := List.length (na_data a) = fold_right Nat.mul 1%nat (na_shape a).
Definition nop_wf (o : nop) : Prop :=
  match o with
  | NAddDof _ a p _ _ | NArt _ _ a p => narr_wf a /\ narr_wf p
  | NAddPymatgen _ p _ => narr_wf p
  | NSetMask sh v => List.length v = fold_right Nat.mul 1%nat sh
  | _ => True
  end.

(** The call adds to the model, and among the numbers it uses is one that is not finite.  A
    dummy model ignores polarizabilities, and [add_art_from_pymatgen] those beyond the number
    of structures. *)
Definition tainted (dummy : bool) (o : nop) : Prop :=
  match o with
  | NAddDof c a p _ _ =>
      Exists row_not_finite c \/ Exists not_finite (na_data a) \/ (dummy = false /\ Exists not_finite (na_data p))
  | NArt _ d a p =>
      Exists not_finite d \/ Exists not_finite (na_data a) \/ (dummy = false /\ Exists not_finite (na_data p))
  | NAddFiles rds _ | NArtFiles rds =>
      exists p t, In (Ok (p, t)) rds /\ (Exists row_not_finite p \/ (dummy = false /\ tensor_not_finite t))
  | NAddPymatgen ps p _ =>
      Exists (Exists row_not_finite) ps \/ (dummy = false /\ Exists not_finite (na_data p))
  | NArtPymatgen ps ts =>
      Exists (Exists row_not_finite) ps \/ Exists tensor_not_finite (firstn (List.length ps) ts)
  | NSetMask _ _ | NUnmask => False
  end.
(** The call adds to the model. *)
Definition adding (o : nop) : Prop := match o with NSetMask _ _ | NUnmask => False | _ => True end.

(** A batch holding the given samples, each an (n,3) array: shape (S,n,3) *)
Definition ncoord (v : n3) (c : nat) : num := match c with O => nx v | S O => ny v | _ => nz v end.
Definition nbatch_of (n : nat) (samples : list (list n3)) : nbatch :=
  mkNBatch [List.length samples; n; 3%nat] (fun s i c => ncoord (nth i (nth s samples []) (fin3 v0)) c).
