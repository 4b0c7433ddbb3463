(** Model of who shares memory with whom: the classes of structure/_reference.py,
    dynamics/_phonon.py, dynamics/_trajectory.py and spectrum/_raman.py as they store and
    hand out NumPy arrays and Python lists.

    Memory is a list of buffers; a NumPy array is a buffer number, the positions of its
    elements in that buffer and a shape, so that a view is another array on the same
    buffer.  A Python list of ints is a buffer of its own.  What the numerical code
    computes from the contents of arrays is given by [kernel], which is arbitrary (the
    values are modelled in the other files); this file is about which memory the results
    occupy.  A polarizability model is assumed to return newly allocated arrays and not
    to write to its argument, as InterpolationModel, ARTModel and PotGNN do.  Private
    attributes are only reached through methods. *)
From Coq Require Import String ZArith Reals Bool Arith List.
From Verif Require Import Base LinAlg M_Validate M_StructUtils M_Interp M_Spectrum M_Dynamics M_Reference.
Import ListNotations.

(** ** NumPy memory *)

(** One element: a float ([None] is not finite) or an int *)
Inductive cell := Num (x : nfloat) | Int (z : Z).
Definition mem := list (list cell).

(** A NumPy array *)
Record aref := mkAref { a_buf : nat; a_cells : list nat; a_shape : list nat }.

Definition buffer (m : mem) (b : nat) : list cell := nth b m [].
Definition load (m : mem) (a : aref) : list cell :=
  map (fun k => nth k (buffer m (a_buf a)) (Num None)) (a_cells a).

Fixpoint set_nth {A} (k : nat) (x : A) (l : list A) : list A :=
  match l, k with
  | [], _ => []
  | _ :: l', O => x :: l'
  | y :: l', S k' => y :: set_nth k' x l'
  end.
(** [a.flat[k] = c], in place *)
Definition store (m : mem) (a : aref) (k : nat) (c : cell) : mem :=
  match nth_error (a_cells a) k with
  | Some j => set_nth (a_buf a) (set_nth j c (buffer m (a_buf a))) m
  | None => m
  end.

(** A new array; [ndarray.copy()] *)
Definition np_new (m : mem) (shape : list nat) (data : list cell) : mem * aref :=
  (m ++ [data], mkAref (List.length m) (seq 0 (List.length data)) shape).
Definition np_copy (m : mem) (a : aref) : mem * aref := np_new m (a_shape a) (load m a).

(** Basic indexing along the first axis gives views: [a[i]] and [a[i0], a[i1], ...] *)
Definition row_size (a : aref) : nat := prod_list (tl (a_shape a)).
Definition row_cells (a : aref) (i : nat) : list nat :=
  firstn (row_size a) (skipn (i * row_size a) (a_cells a)).
Definition np_row (a : aref) (i : nat) : aref :=
  mkAref (a_buf a) (row_cells a i) (tl (a_shape a)).
Definition np_rows (a : aref) (is : list nat) : aref :=
  mkAref (a_buf a) (flat_map (row_cells a) is) (List.length is :: tl (a_shape a)).

(** ** Objects: the attributes that are arrays or lists *)
Inductive pyobj :=
| OStruct (numbers : nat) (lattice positions rotations translations : aref)
          (equiv : list nat) (perms : list bmat)
| OPhonons (ref_positions wavenumbers displacements : aref)
| OTrajectory (positions_ts : aref) (timestep : R)
| OPhononSpectrum (wavenumbers tensors : aref)
| OMDSpectrum (polarizability_ts : aref) (timestep : R).

(** What the numerical code computes from contents *)
Record kernel := mkKernel {
  (* spglib.get_symmetry: number of operations, rotations, translations, labels *)
  k_spglib : list cell -> list cell -> list cell -> option (nat * list cell * list cell * list nat);
  (* _compute_permutation_matrices *)
  k_perms : list cell -> list cell -> list cell -> res (list bmat);
  (* get_equivalent_displacements: displacements, each with the number of its operation *)
  k_equivalent : list cell -> list cell -> list cell -> list bmat -> list cell ->
                 res (list (list cell * nat));
  (* Raman tensors of phonons and polarizabilities of a trajectory, with their shape *)
  k_tensors : list cell -> list cell -> res (list nat * list cell);
  k_polarizabilities : list cell -> res (list nat * list cell);
  (* intensities of a phonon spectrum; wavenumbers and intensities of an MD spectrum *)
  k_phonon_measure : list cell -> list cell -> margs -> res (list cell);
  k_md_measure : list cell -> R -> margs -> res (list cell * list cell) }.

(** ** The caller *)

(** Something the caller has: an array or a list *)
Inductive hval := HArr (a : aref) | HLst (l : nat).

Inductive prop :=
| AtomicNumbers | Lattice | Positions                 (* ReferenceStructure *)
| RefPositions | Wavenumbers | Displacements          (* Phonons *)
| PositionsTs                                         (* Trajectory *)
| PhononWavenumbers | RamanTensors                    (* PhononRamanSpectrum *)
| PolarizabilityTs.                                   (* MDRamanSpectrum *)

(** How the caller came by it (for the specification only): it had it already, it made
    it, it read a property, it called another method.  A view has the origin of the
    array it is a view of. *)
Inductive origin := Before | Made | Read (p : prop) | Called.

Record state := mkState {
  st_mem : mem;
  st_held : list (hval * origin);
  st_objs : list pyobj }.

(** What the caller does: numbers refer to things it has ([st_held]) and to objects *)
Inductive op :=
| NewArray (shape : list nat) (data : list cell)
| NewList (l : list Z)
| View (i : nat) (cells shape : list nat)
| Write (i k : nat) (c : cell)
| SetList (i : nat) (l : list Z)
| MakeStruct (numbers lattice positions : nat)
| MakePhonons (ref wav disp : nat)
| MakeTrajectory (ts : nat) (timestep : R)
| MakePhononSpectrum (wav tensors : nat)
| MakeMDSpectrum (ts : nat) (timestep : R)
| Property (o : nat) (p : prop)
| EquivalentDisplacements (o : nat) (displacement : list cell)
| RamanSpectrum (o : nat)
| GetItem (o : nat) (i : Z)
| GetSlice (o : nat) (start stop step : option Z)
| Measure (o : nat) (args : margs).

(** Result of a call: arrays and lists handed out, and new objects *)
Definition result := res (list hval * list pyobj).

Definition arr_at (s : state) (i : nat) : res aref :=
  match nth_error (st_held s) i with Some (HArr a, _) => Ok a | _ => Err TypeError end.
Definition lst_at (s : state) (i : nat) : res nat :=
  match nth_error (st_held s) i with Some (HLst l, _) => Ok l | _ => Err TypeError end.

(** structure/utils.py:20-36 [apply_pbc]: [positions - positions // 1] is a new array *)
Definition wrap_cell (c : cell) : cell :=
  match c with Num (Some x) => Num (Some (wrap x)) | Num None => Num None | Int _ => Int 0 end.

(** _reference.py:90-125 [ReferenceStructure.__init__]: keeps the caller's list and
    arrays; spglib's arrays are new *)
Definition make_struct (k : kernel) (m : mem) (numbers : nat) (lattice positions : aref)
  : res (mem * pyobj) :=
  let nums := buffer m numbers in
  let* _ := verify_list_len (List.length nums) None in
  let* _ := verify_ndarray_shape (a_shape lattice) [Some 3; Some 3] in
  let* _ := verify_ndarray_shape (a_shape positions) [Some (List.length nums); Some 3] in
  match k_spglib k (load m lattice) (load m positions) nums with
  | None => Err SymmetryException
  | Some (n, rot, tra, equiv) =>
      let '(m1, rotations) := np_new m [n; 3; 3] rot in
      let '(m2, translations) := np_new m1 [n; 3] tra in
      let* perms := k_perms k rot tra (load m positions) in
      Ok (m2, OStruct numbers lattice positions rotations translations equiv perms)
  end.

(** _phonon.py:31-46 [Phonons.__init__]: keeps the caller's arrays *)
Definition make_phonons (m : mem) (ref wav disp : aref) : res (mem * pyobj) :=
  let* _ := verify_ndarray_shape (a_shape ref) [None; Some 3] in
  let* _ := verify_ndarray_shape (a_shape wav) [None] in
  let* _ := verify_ndarray_shape (a_shape disp)
              [Some (List.length (a_cells wav)); Some (hd 0 (a_shape ref)); Some 3] in
  Ok (m, OPhonons ref wav disp).

(** _trajectory.py:32-46 [Trajectory.__init__]: keeps a new, wrapped array *)
Definition make_trajectory (m : mem) (ts : aref) (timestep : R) : res (mem * pyobj) :=
  let* _ := verify_ndarray_shape (a_shape ts) [None; None; Some 3] in
  if Rleb timestep 0 then Err ValueError
  else let '(m1, a) := np_new m (a_shape ts) (map wrap_cell (load m ts)) in
       Ok (m1, OTrajectory a timestep).

(** _raman.py:86-97 [PhononRamanSpectrum.__init__]: keeps the caller's arrays *)
Definition make_phonon_spectrum (m : mem) (wav tensors : aref) : res (mem * pyobj) :=
  let* _ := verify_ndarray_shape (a_shape wav) [None] in
  let* _ := verify_ndarray_shape (a_shape tensors) [Some (hd 0 (a_shape wav)); Some 3; Some 3] in
  Ok (m, OPhononSpectrum wav tensors).

(** _raman.py:212-216 [MDRamanSpectrum.__init__]: keeps the caller's array *)
Definition make_md_spectrum (m : mem) (ts : aref) (timestep : R) : res (mem * pyobj) :=
  let* _ := verify_ndarray_shape (a_shape ts) [None; Some 3; Some 3] in
  Ok (m, OMDSpectrum ts timestep).

(** [return self._x.copy()] *)
Definition give_copy (m : mem) (a : aref) : res (mem * hval) :=
  let '(m1, b) := np_copy m a in Ok (m1, HArr b).

(** The properties: _reference.py:127-157 ([copy.copy] of the list of atomic numbers,
    [ndarray.copy] of the others), _phonon.py:48-80, _trajectory.py:48-58,
    _raman.py:99-119 and _raman.py:218-227, which returns the stored array itself *)
Definition get_property (m : mem) (o : pyobj) (p : prop) : res (mem * hval) :=
  match o, p with
  | OStruct numbers _ _ _ _ _ _, AtomicNumbers =>
      Ok (m ++ [buffer m numbers], HLst (List.length m))
  | OStruct _ lattice _ _ _ _ _, Lattice => give_copy m lattice
  | OStruct _ _ positions _ _ _ _, Positions => give_copy m positions
  | OPhonons ref _ _, RefPositions => give_copy m ref
  | OPhonons _ wav _, Wavenumbers => give_copy m wav
  | OPhonons _ _ disp, Displacements => give_copy m disp
  | OTrajectory ts _, PositionsTs => give_copy m ts
  | OPhononSpectrum wav _, PhononWavenumbers => give_copy m wav
  | OPhononSpectrum _ tensors, RamanTensors => give_copy m tensors
  | OMDSpectrum ts _, PolarizabilityTs => Ok (m, HArr ts)
  | _, _ => Err AttributeError
  end.

(** _reference.py:183-264 [get_equivalent_displacements]: displacements are new arrays;
    the transformations are what iterating over the stored arrays gives, i.e. views *)
Fixpoint hand_out (m : mem) (rotations translations : aref) (l : list (list cell * nat))
  : mem * list hval :=
  match l with
  | [] => (m, [])
  | (d, i) :: l' =>
      let '(m1, a) := np_new m [List.length d / 3; 3] d in
      let '(m2, rest) := hand_out m1 rotations translations l' in
      (m2, HArr a :: HArr (np_row rotations i) :: HArr (np_row translations i) :: rest)
  end.
Definition equivalent_displacements (k : kernel) (m : mem) (o : pyobj) (d : list cell)
  : res (mem * list hval) :=
  match o with
  | OStruct _ _ positions rotations translations _ perms =>
      let* l := k_equivalent k (load m positions) (load m rotations) (load m translations) perms d in
      Ok (hand_out m rotations translations l)
  | _ => Err AttributeError
  end.

(** _phonon.py:82-108 and _trajectory.py:71-90 [get_raman_spectrum]: a phonon spectrum
    shares the array of wavenumbers with the phonons *)
Definition get_raman_spectrum (k : kernel) (m : mem) (o : pyobj) : res (mem * pyobj) :=
  match o with
  | OPhonons ref wav disp =>
      let* t := k_tensors k (load m ref) (load m disp) in
      let '(m1, tensors) := np_new m (fst t) (snd t) in
      make_phonon_spectrum m1 wav tensors
  | OTrajectory ts timestep =>
      let* t := k_polarizabilities k (load m ts) in
      let '(m1, pols) := np_new m (fst t) (snd t) in
      make_md_spectrum m1 pols timestep
  | _ => Err AttributeError
  end.

(** _trajectory.py:102-109 [Trajectory.__getitem__]: a view of the stored array *)
Definition get_item (o : pyobj) (i : Z) : res hval :=
  match o with
  | OTrajectory ts _ =>
      match py_index (hd 0 (a_shape ts)) i with
      | Some j => Ok (HArr (np_row ts j))
      | None => Err IndexError
      end
  | _ => Err TypeError
  end.
Definition get_slice (o : pyobj) (start stop step : option Z) : res hval :=
  match o with
  | OTrajectory ts _ =>
      let st := match step with Some s => s | None => 1%Z end in
      if (st =? 0)%Z then Err ValueError
      else
        let '(a, b) := slice_bounds (hd 0 (a_shape ts)) start stop st in
        Ok (HArr (np_rows ts (map (fun j => Z.to_nat (a + Z.of_nat j * st)) (seq 0 (slice_count a b st)))))
  | _ => Err TypeError
  end.

(** _raman.py:122-194 and 241-309 [measure]: a phonon spectrum returns the stored array
    of wavenumbers itself (line 194) *)
Definition measure (k : kernel) (m : mem) (o : pyobj) (args : margs) : res (mem * list hval) :=
  match o with
  | OPhononSpectrum wav tensors =>
      let* i := k_phonon_measure k (load m wav) (load m tensors) args in
      let '(m1, a) := np_new m [List.length i] i in
      Ok (m1, [HArr wav; HArr a])
  | OMDSpectrum ts timestep =>
      let* wi := k_md_measure k (load m ts) timestep args in
      let '(m1, w) := np_new m [List.length (fst wi)] (fst wi) in
      let '(m2, a) := np_new m1 [List.length (snd wi)] (snd wi) in
      Ok (m2, [HArr w; HArr a])
  | _ => Err AttributeError
  end.

Definition with_obj {A} (s : state) (o : nat) (f : pyobj -> res A) : res A :=
  match nth_error (st_objs s) o with Some x => f x | None => Err IndexError end.

(** Memory after the call, what it hands out (with its origin) and new objects *)
Definition effect := res (mem * list (hval * origin) * list pyobj).
Definition gives (org : origin) (r : res (mem * list hval)) : effect :=
  let* x := r in Ok (fst x, map (fun h => (h, org)) (snd x), []).
Definition gives1 (org : origin) (r : res (mem * hval)) : effect :=
  let* x := r in Ok (fst x, [(snd x, org)], []).
Definition makes (r : res (mem * pyobj)) : effect :=
  let* x := r in Ok (fst x, [], [snd x]).

Definition perform (k : kernel) (s : state) (o : op) : effect :=
  let m := st_mem s in
  match o with
  | NewArray shape data => gives1 Made (Ok (let '(m1, a) := np_new m shape data in (m1, HArr a)))
  | NewList l => gives1 Made (Ok (m ++ [map Int l], HLst (List.length m)))
  | View i cells shape =>
      match nth_error (st_held s) i with
      | Some (HArr a, org) => gives1 org (Ok (m, HArr (mkAref (a_buf a) cells shape)))
      | _ => Err TypeError
      end
  | Write i j c => let* a := arr_at s i in Ok (store m a j c, [], [])
  | SetList i l => let* b := lst_at s i in Ok (set_nth b (map Int l) m, [], [])
  | MakeStruct n l p =>
      let* n' := lst_at s n in let* l' := arr_at s l in let* p' := arr_at s p in
      makes (make_struct k m n' l' p')
  | MakePhonons r w d =>
      let* r' := arr_at s r in let* w' := arr_at s w in let* d' := arr_at s d in
      makes (make_phonons m r' w' d')
  | MakeTrajectory t dt => let* t' := arr_at s t in makes (make_trajectory m t' dt)
  | MakePhononSpectrum w t =>
      let* w' := arr_at s w in let* t' := arr_at s t in makes (make_phonon_spectrum m w' t')
  | MakeMDSpectrum t dt => let* t' := arr_at s t in makes (make_md_spectrum m t' dt)
  | Property x p => gives1 (Read p) (with_obj s x (fun o => get_property m o p))
  | EquivalentDisplacements x d =>
      gives Called (with_obj s x (fun o => equivalent_displacements k m o d))
  | RamanSpectrum x => makes (with_obj s x (get_raman_spectrum k m))
  | GetItem x i => gives1 Called (let* h := with_obj s x (fun o => get_item o i) in Ok (m, h))
  | GetSlice x a b c =>
      gives1 Called (let* h := with_obj s x (fun o => get_slice o a b c) in Ok (m, h))
  | Measure x args => gives Called (with_obj s x (fun o => measure k m o args))
  end.

(** A call that raises changes nothing the caller can reach *)
Definition step (k : kernel) (s : state) (o : op) : state :=
  match perform k s o with
  | Ok (m, hs, objs) => mkState m (st_held s ++ hs) (st_objs s ++ objs)
  | Err _ => s
  end.
Definition run (k : kernel) (s : state) (ops : list op) : state := fold_left (step k) ops s.
