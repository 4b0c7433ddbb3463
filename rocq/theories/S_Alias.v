(** What the aliasing properties C73 and C74 talk about. *)
From Coq Require Import String ZArith Reals Bool Arith List.
From Verif Require Import Base LinAlg M_Validate M_Interp M_Spectrum M_Alias.
Import ListNotations.

(** What is visible of an array, a list or an object: shapes and current contents *)
Inductive shown :=
| SArr (shape : list nat) (contents : list cell)
| SLst (contents : list cell)
| SObj (arrays : list (list nat * list cell)) (rest : list (list nat) * list (list (list bool)) * option R).

Definition show_arr (m : mem) (a : aref) : list nat * list cell := (a_shape a, load m a).
Definition show_val (m : mem) (h : hval) : shown :=
  match h with
  | HArr a => SArr (a_shape a) (load m a)
  | HLst l => SLst (buffer m l)
  end.
Definition show_obj (m : mem) (o : pyobj) : shown :=
  match o with
  | OStruct numbers lattice positions rotations translations equiv perms =>
      SObj [([], buffer m numbers); show_arr m lattice; show_arr m positions;
            show_arr m rotations; show_arr m translations] ([equiv], perms, None)
  | OPhonons ref wav disp => SObj [show_arr m ref; show_arr m wav; show_arr m disp] ([], [], None)
  | OTrajectory ts dt => SObj [show_arr m ts] ([], [], Some dt)
  | OPhononSpectrum wav tensors => SObj [show_arr m wav; show_arr m tensors] ([], [], None)
  | OMDSpectrum ts dt => SObj [show_arr m ts] ([], [], Some dt)
  end.

(** What the caller sees when it makes a call in a state: an exception, or the contents of
    everything the call hands out, and of every object it makes *)
Definition answer (k : kernel) (s : state) (o : op) : res (list shown) :=
  match perform k s o with
  | Ok (m, hs, objs) => Ok (map (fun h => show_val m (fst h)) hs ++ map (show_obj m) objs)
  | Err e => Err e
  end.

(** The calls on object [i] *)
Definition call_on (i : nat) (o : op) : Prop :=
  match o with
  | Property x _ | EquivalentDisplacements x _ | RamanSpectrum x
  | GetItem x _ | GetSlice x _ _ _ | Measure x _ => x = i
  | _ => False
  end.

(** Everything in a state refers to existing memory *)
Definition aref_in (m : mem) (a : aref) : Prop := a_buf a < List.length m.
Definition hval_in (m : mem) (h : hval) : Prop :=
  match h with HArr a => aref_in m a | HLst l => l < List.length m end.
Definition obj_in (m : mem) (o : pyobj) : Prop :=
  match o with
  | OStruct numbers lattice positions rotations translations _ _ =>
      numbers < List.length m /\ aref_in m lattice /\ aref_in m positions
      /\ aref_in m rotations /\ aref_in m translations
  | OPhonons ref wav disp => aref_in m ref /\ aref_in m wav /\ aref_in m disp
  | OTrajectory ts _ => aref_in m ts
  | OPhononSpectrum wav tensors => aref_in m wav /\ aref_in m tensors
  | OMDSpectrum ts _ => aref_in m ts
  end.
Definition sound (s : state) : Prop :=
  Forall (fun h => hval_in (st_mem s) (fst h)) (st_held s)
  /\ Forall (obj_in (st_mem s)) (st_objs s).

(** Forget how things were acquired *)
Definition from_now (s : state) : state :=
  mkState (st_mem s) (map (fun h => (fst h, Before)) (st_held s)) (st_objs s).

(** The properties that really hand out copies: all but one of those documented so *)
Definition copying (p : prop) : bool :=
  match p with PolarizabilityTs => false | _ => true end.
Definition own (org : origin) : bool :=
  match org with Made => true | Read p => copying p | Before | Called => false end.

(** In-place writes of a history only go to arrays and lists that the caller made itself
    or got from copying properties during the history (or views of such arrays) *)
Definition writes_to (o : op) : option nat :=
  match o with Write i _ _ => Some i | SetList i _ => Some i | _ => None end.
Fixpoint writes_own (k : kernel) (s : state) (ops : list op) : Prop :=
  match ops with
  | [] => True
  | o :: ops' =>
      (forall i h org, writes_to o = Some i -> nth_error (st_held s) i = Some (h, org) -> own org = true)
      /\ writes_own k (step k s o) ops'
  end.

(** An ordinary array: every element has a place of its own in the buffer *)
Definition ordinary (m : mem) (a : aref) : Prop :=
  aref_in m a /\ NoDup (a_cells a) /\ Forall (fun j => j < List.length (buffer m (a_buf a))) (a_cells a).

(** Element [y] is element [x] moved into the cell: in [0,1) and a whole number away *)
Definition wrapped (x y : cell) : Prop :=
  match x, y with
  | Num (Some x), Num (Some y) => (0 <= y < 1)%R /\ exists z : Z, y = (x - IZR z)%R
  | Num None, Num None => True
  | Int _, Int z => z = 0%Z
  | _, _ => False
  end.

(** The call indexes or slices object [i] *)
Definition indexes (i : nat) (o : op) : Prop :=
  match o with GetItem x _ | GetSlice x _ _ _ => x = i | _ => False end.
