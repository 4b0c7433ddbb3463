(** What C87 talks about: what the caller sees of arrays and models, and which calls can
    change which of them. *)
From Coq Require Import String ZArith Reals Bool Arith List.
From Verif Require Import Base LinAlg M_Validate M_Reference M_Interp M_Art M_Alias M_Shared.
Import ListNotations.

(** What is seen of array [i] and of model [j] *)
Definition array_at (w : world) (i : nat) : option (list nat * list cell) :=
  option_map (fun a => (a_shape a, load (w_mem w) a)) (nth_error (w_held w) i).
Definition model_at (w : world) (j : nat) : option imodel :=
  option_map (contents (w_mem w)) (nth_error (w_models w) j).
Definition class_at (w : world) (j : nat) : option bool := option_map pm_art (nth_error (w_models w) j).
Definition mask_at (w : world) (j : nat) : option (list bool) := option_map im_mask (model_at w j).

(** Worlds a program can get to *)
Definition empty_world : world := mkWorld [] [] [].
Definition reached (spl : nat -> list (R * M3) -> R -> M3) (w : world) : Prop :=
  exists cs, w = history spl empty_world cs.

(** The calls that can change model [j]: adding DOFs, assigning its mask, [unmask], and
    asking for [get_specification_tuples], which gives away views of its basis vectors *)
Definition leaves_model (P : nat -> Prop) (c : call) : Prop :=
  match c with
  | Add j _ | SetMask j _ | Unmask j | GetDirections j => ~ P j
  | _ => True
  end.
(** The calls that write to array [i], or make something else share its memory for writing *)
Definition leaves_array (P : nat -> Prop) (c : call) : Prop :=
  match c with
  | Slice i _ _ | WriteTo i _ _ | SetMask _ i => ~ P i
  | _ => True
  end.

(** The calls that answer with new arrays *)
Definition copying (c : call) : Prop :=
  match c with NewArray _ _ | GetMask _ | GetPolarizability _ | GetBasis _ | Predict _ _ => True | _ => False end.

(** No array is written to *)
Definition no_writes (c : call) : Prop := match c with WriteTo _ _ _ | SetMask _ _ => False | _ => True end.

(** The calls on model [j], acting on the model alone *)
Inductive own := OwnAdd (a : adding) | OwnUnmask.
Definition own_call (j : nat) (c : call) : list own :=
  match c with
  | Add k a => if Nat.eqb k j then [OwnAdd a] else []
  | Unmask k => if Nat.eqb k j then [OwnUnmask] else []
  | _ => []
  end.
Definition own_step (art : bool) (v : imodel) (o : own) : imodel :=
  match o with
  | OwnAdd a => fst (fst (run_adding art a v))
  | OwnUnmask => fst (fst (unmask v))
  end.
Definition alone (art : bool) (v : imodel) (os : list own) : imodel := fold_left (own_step art) os v.
