(** Specification vocabulary for file-system effects. *)
From Coq Require Import String Ascii ZArith NArith Bool Arith List.
From Verif Require Import Base M_Text M_Poscar M_Files.
Import ListNotations.

Definition prefix_of (a b : text) : Prop := exists c, b = a ++ c.
(** Nothing but [p] differs *)
Definition same_except (p : path) (f g : fs) : Prop := forall q, q <> p -> g q = f q.
Definition same_fs (f g : fs) : Prop := forall q, g q = f q.

(** What a call that writes [whole] to [p] may have done, however it ended:
    - it returned: [p] holds exactly [whole];
    - it raised: nothing changed;
    - it was interrupted: [p] holds a prefix of [whole]. *)
Definition wrote (p : path) (whole : text) (f : fs) (o : outcome) (g : fs) : Prop :=
  same_except p f g /\
  match o with
  | Done => g p = Present whole
  | Raised _ => g p = f p
  | Interrupted => exists c, g p = Present c /\ prefix_of c whole
  end.

(** Several files written in order: the first [k] are complete; if the run ended early, the
    next one holds a prefix of its text (interrupted) or is as before (the call raised because
    it exists and may not be overwritten, or cannot be opened); the others are as before *)
Definition wrote_in_order (overwrite : bool) (jobs : list (path * text)) (f : fs) (o : outcome) (g : fs) : Prop :=
  exists k,
    (k <= List.length jobs)%nat /\ (o = Done <-> k = List.length jobs) /\
    (forall i p t, (i < k)%nat -> nth_error jobs i = Some (p, t) -> g p = Present t) /\
    (forall p t, nth_error jobs k = Some (p, t) ->
       match o with
       | Done => False
       | Raised e => g p = f p /\ ((overwrite = false /\ e = FileExistsError /\ exists c, f p = Present c) \/ f p = Blocked e)
       | Interrupted => exists c, g p = Present c /\ prefix_of c t
       end) /\
    (forall i p t, (k < i)%nat -> nth_error jobs i = Some (p, t) -> g p = f p) /\
    (forall q, ~ In q (map fst jobs) -> g q = f q).
(** [p] can be opened for writing *)
Definition writable (f : fs) (overwrite : bool) (p : path) : Prop :=
  f p = Absent \/ (exists c, f p = Present c /\ overwrite = true).

Inductive call :=
| CallStructure (lattice : narr) (numbers : list Z) (positions : narr) (p : path) (overwrite : bool) (label : text)
| CallTrajectory (lattice : narr) (numbers : list Z) (positions_ts : narr) (p : path) (overwrite : bool) (label : text)
| CallGenericStructure (lattice : narr) (numbers : list Z) (positions : narr) (p : path) (fmt : string) (overwrite : bool)
| CallGenericTrajectory (lattice : narr) (numbers : list Z) (positions_ts : narr) (p : path) (fmt : string) (overwrite : bool).
Definition call_overwrite (c : call) : bool :=
  match c with CallStructure _ _ _ _ o _ | CallTrajectory _ _ _ _ o _
             | CallGenericStructure _ _ _ _ _ o | CallGenericTrajectory _ _ _ _ _ o => o end.
Definition call_path (c : call) : path :=
  match c with CallStructure _ _ _ p _ _ | CallTrajectory _ _ _ p _ _
             | CallGenericStructure _ _ _ p _ _ | CallGenericTrajectory _ _ _ p _ _ => p end.
Definition performs (E : env) (c : call) (f : fs) (o : outcome) (g : fs) : Prop :=
  match c with
  | CallStructure l n x p ow lab => write_structure E f l n x p ow lab o g
  | CallTrajectory l n x p ow lab => write_trajectory E f l n x p ow lab o g
  | CallGenericStructure l n x p fmt ow => generic_write_structure E f l n x p fmt ow o g
  | CallGenericTrajectory l n x p fmt ow => generic_write_trajectory E f l n x p fmt ow o g
  end.
(** Any number of calls, each ending in any way *)
Inductive history (E : env) : fs -> list (call * outcome) -> fs -> Prop :=
| hist_nil f : history E f [] f
| hist_cons f c o g h k : performs E c f o g -> history E g h k -> history E f ((c, o) :: h) k.

