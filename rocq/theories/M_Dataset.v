(** Model of ramannoodle/dataset/torch: [utils.py] (conversion between polarizability vectors
    and tensors) and [_dataset.py] ([PolarizabilityDataset]), with
    [_read_polarizability_dataset] (ramannoodle/io/_utils.py:99-160) and
    [construct_polarizability_dataset] (ramannoodle/io/pymatgen.py:116-146).

    Tensors are arrays of floats with a shape, as in M_Poscar; arithmetic is exact on finite
    entries and follows IEEE rules on the others, except that zeros carry no sign.  [cast]
    is the conversion of a float64 to PyTorch's default dtype.  Atomic numbers fit
    in an int32 here; M_Int32.v has the others. *)
From Coq Require Import String Ascii ZArith NArith Reals Bool Arith List.
From Verif Require Import Base LinAlg Constants M_Validate M_Text M_Poscar M_Outcar M_Vasprun.
Import ListNotations.
Local Open Scope nat_scope.

(** ** utils.py *)
(** utils.py:93-111 [verify_tensor_size], on the size only *)
Fixpoint sizes_match (dims : list nat) (spec : list (option nat)) : bool :=
  match dims, spec with
  | d1 :: dims', d2 :: spec' =>
      match d2 with
      | Some d => if Nat.eqb d1 d then sizes_match dims' spec' else false
      | None => sizes_match dims' spec'
      end
  | _, _ => true
  end.
Definition verify_tensor_size (dims : list nat) (spec : list (option nat)) : res unit :=
  if negb (Nat.eqb (List.length spec) (List.length dims)) then Err ValueError
  else if sizes_match dims spec then Ok tt else Err ValueError.
(** The [n] rows of [k] entries of a row-major array *)
Fixpoint split_rows (k n : nat) (l : list num) : list (list num) :=
  match n with
  | O => []
  | S n' => firstn k l :: split_rows k n' (skipn k l)
  end.
(** Integer-array indexing of one row *)
Definition gather (idx : list nat) (row : list num) : list num := map (fun i => nth i row NaN) idx.
(** utils.py:20-41 [polarizability_vectors_to_tensors] *)
Definition vectors_to_tensors (a : narr) : res narr :=
  let* _ := verify_tensor_size (na_shape a) [None; Some 6] in
  let s := hd 0 (na_shape a) in
  Ok (mkNarr [s; 3; 3] (flat_map (gather [0; 3; 4; 3; 1; 5; 4; 5; 2]) (split_rows 6 s (na_data a)))).
(** utils.py:44-60 [polarizability_tensors_to_vectors] *)
Definition vector_indices : list (nat * nat) := [(0, 0); (1, 1); (2, 2); (0, 1); (0, 2); (1, 2)].
Definition tensors_to_vectors (a : narr) : res narr :=
  let* _ := verify_tensor_size (na_shape a) [None; Some 3; Some 3] in
  let s := hd 0 (na_shape a) in
  Ok (mkNarr [s; 6]
        (flat_map (gather (map (fun p => 3 * fst p + snd p) vector_indices)) (split_rows 9 s (na_data a)))).

(** ** Float arithmetic *)
Definition num_sub (x y : num) : num := num_add x (num_opp y).
(** True division; a zero divisor counts as +0 *)
Definition num_quot (x y : num) : num :=
  match x, y with
  | NaN, _ => NaN
  | _, NaN => NaN
  | Fin a, Fin b => if Req_EM_T b 0 then (if Req_EM_T a 0 then NaN else Inf (Rltb a 0)) else Fin (a / b)
  | Fin _, Inf _ => Fin 0
  | Inf s, Fin b => Inf (xorb s (Rltb b 0))
  | Inf _, Inf _ => NaN
  end.
Definition num_sum (l : list num) : num := fold_left num_add l (Fin 0).
(** [mean(0)] and [std(0, unbiased=False)] of one entry over the samples *)
Definition col_mean (l : list num) : num := num_quot (num_sum l) (Fin (INR (List.length l))).
Definition col_std (l : list num) : num :=
  let m := col_mean l in
  num_sqrt (num_quot (num_sum (map (fun x => let d := num_sub x m in num_mul d d) l)) (Fin (INR (List.length l)))).
(** Entry [j] (0..8, row-major) of every sample of an array of shape (S,3,3) *)
Definition column (a : narr) (j : nat) : list num :=
  map (fun r => nth j r NaN) (split_rows 9 (hd 0 (na_shape a)) (na_data a)).
Definition means (a : narr) : list num := map (fun j => col_mean (column a j)) (seq 0 9).
Definition stds (a : narr) : list num := map (fun j => col_std (column a j)) (seq 0 9).
(** Elementwise operation of every sample with one 3x3 array *)
Fixpoint zip_with {A B C} (f : A -> B -> C) (l : list A) (m : list B) : list C :=
  match l, m with a :: l', b :: m' => f a b :: zip_with f l' m' | _, _ => [] end.
Definition each (op : num -> num -> num) (a : narr) (t : list num) : narr :=
  mkNarr (na_shape a) (flat_map (fun r => zip_with op r t) (split_rows 9 (hd 0 (na_shape a)) (na_data a))).

(** ** _dataset.py *)
(** _dataset.py:21-62 [_scale_and_flatten_polarizabilities] for an array of shape (S,3,3).
    [torch.zeros] has the default dtype, so every entry stored is cast. *)
Definition flatten (cast : num -> num) (a : narr) : narr :=
  let s := hd 0 (na_shape a) in
  mkNarr [s; 6]
    (flat_map (fun r => map cast [nth 0 r NaN; nth 4 r NaN; nth 8 r NaN; nth 1 r NaN; nth 2 r NaN; nth 5 r NaN])
       (split_rows 9 s (na_data a))).
Definition scale_and_flatten (cast : num -> num) (a : narr) (mode : string) : res (narr * narr * narr) :=
  let mean := means a in
  let stddev := stds a in
  let* p :=
    if String.eqb mode "standard" then Ok (each num_quot (each num_sub a mean) stddev)
    else if String.eqb mode "stddev" then Ok (each num_add (each num_quot (each num_sub a mean) stddev) mean)
    else if String.eqb mode "none" then Ok a
    else Err ValueError in
  Ok (mkNarr [1; 3; 3] mean, mkNarr [1; 3; 3] stddev, flatten cast p).

Record dataset := mkDataset {
  ds_lattice : narr;      (* of every sample *)
  ds_numbers : list Z;    (* of every sample *)
  ds_positions : narr;
  ds_raw : narr;          (* [_polarizabilities] *)
  ds_scaled : narr }.
Definition cast_all (cast : num -> num) (a : narr) : narr := mkNarr (na_shape a) (map cast (na_data a)).
(** _dataset.py:87-113 [PolarizabilityDataset.__init__] *)
Definition dataset_new (cast : num -> num) (lattice : narr) (numbers : list Z) (positions polarizabilities : narr)
  : res dataset :=
  let* _ := verify_ndarray_shape (na_shape lattice) [Some 3; Some 3] in
  let* _ := verify_list_len (List.length numbers) None in
  let* _ := verify_ndarray_shape (na_shape positions) [None; Some (List.length numbers); Some 3] in
  let num_samples := hd 0 (na_shape positions) in
  let* _ := verify_ndarray_shape (na_shape polarizabilities) [Some num_samples; Some 3; Some 3] in
  let* (_, _, scaled) := scale_and_flatten cast polarizabilities "standard" in
  Ok (mkDataset (cast_all cast lattice) numbers (cast_all cast positions) polarizabilities (cast_all cast scaled)).
(** _dataset.py:115-123 [num_atoms], [num_samples], 219-221 [__len__] *)
Definition num_atoms (d : dataset) : nat := nth 1 (na_shape (ds_positions d)) 0.
Definition num_samples (d : dataset) : nat := nth 0 (na_shape (ds_positions d)) 0.
(** _dataset.py:170-191 [mean_polarizability], [stddev_polarizability] *)
Definition mean_polarizability (d : dataset) : narr := mkNarr [3; 3] (means (ds_raw d)).
Definition stddev_polarizability (d : dataset) : narr := mkNarr [3; 3] (stds (ds_raw d)).
(** _dataset.py:193-217 [scale_polarizabilities]; nothing is cast *)
Definition scale_polarizabilities (d : dataset) (mean stddev : narr) : res dataset :=
  let* _ := verify_ndarray_shape (na_shape mean) [Some 3; Some 3] in
  let* _ := verify_ndarray_shape (na_shape stddev) [Some 3; Some 3] in
  let* v := tensors_to_vectors (each num_quot (each num_sub (ds_raw d) (na_data mean)) (na_data stddev)) in
  Ok (mkDataset (ds_lattice d) (ds_numbers d) (ds_positions d) (ds_raw d) v).
(** _dataset.py:223-230 [__getitem__]: a negative index counts from the end *)
Definition row (k : nat) (i : nat) (l : list num) : list num := firstn k (skipn (i * k) l).
Definition getitem (d : dataset) (i : Z) : res (narr * list Z * narr * narr) :=
  let n := num_samples d in
  let j := if (i <? 0)%Z then (i + Z.of_nat n)%Z else i in
  if ((j <? 0) || (Z.of_nat n <=? j))%Z then Err IndexError
  else
    let k := Z.to_nat j in
    Ok (ds_lattice d, ds_numbers d,
        mkNarr [num_atoms d; 3] (row (num_atoms d * 3) k (na_data (ds_positions d))),
        mkNarr [6] (row 6 k (na_data (ds_scaled d)))).

(** ** [np.allclose] *)
(** Broadcast of two shapes, last dimension first; None: ValueError *)
Fixpoint broadcast_rev (a b : list nat) : option (list nat) :=
  match a, b with
  | [], _ => Some b
  | _, [] => Some a
  | x :: a', y :: b' =>
      if Nat.eqb x y || Nat.eqb y 1 then option_map (cons x) (broadcast_rev a' b')
      else if Nat.eqb x 1 then option_map (cons y) (broadcast_rev a' b')
      else None
  end.
(** All indexes of a shape in row-major order *)
Fixpoint indexes (shape : list nat) : list (list nat) :=
  match shape with
  | [] => [[]]
  | n :: shape' => flat_map (fun i => map (cons i) (indexes shape')) (seq 0 n)
  end.
(** The entry of an array at an index of a shape it is broadcast to *)
Fixpoint offset_rev (shape idx : list nat) : nat :=
  match shape, idx with
  | n :: shape', i :: idx' => (if Nat.eqb n 1 then 0 else i) + n * offset_rev shape' idx'
  | _, _ => 0
  end.
Definition entry_at (a : narr) (idx : list nat) : num :=
  nth (offset_rev (rev (na_shape a)) (rev idx)) (na_data a) NaN.
(** |x - y| <= atol + rtol |y| for finite values; infinities are close to themselves, NaN to
    nothing.  rtol = 1e-5 (NumPy's default) and atol = 1e-5. *)
Definition num_close (x y : num) : bool :=
  match x, y with
  | Fin a, Fin b => Rleb (Rabs (a - b)) (1 / 10 ^ 5 + 1 / 10 ^ 5 * Rabs b)
  | Inf a, Inf b => Bool.eqb a b
  | _, _ => false
  end.
Definition np_allclose (a b : narr) : res bool :=
  match broadcast_rev (rev (na_shape a)) (rev (na_shape b)) with
  | None => Err ValueError
  | Some s => Ok (forallb (fun i => num_close (entry_at a i) (entry_at b i)) (indexes (rev s)))
  end.

(** ** Reading a dataset *)
(** io/_utils.py:133-153.  [index], [lattice], [numbers], [pos], [pol] are the loop's
    variables. *)
Definition znumbers_eqb (a b : list Z) : bool := if list_eq_dec Z.eq_dec a b then true else false.
Definition shape_eqb (a b : list nat) : bool := if list_eq_dec Nat.eq_dec a b then true else false.
Section Read.
Context {Path : Type} (read_fn : Path -> res (narr * list Z * narr * narr)).
Fixpoint dataset_loop (index : nat) (lattice : narr) (numbers : list Z) (pos pol : list narr) (paths : list Path)
  : res (narr * list Z * list narr * list narr) :=
  match paths with
  | [] => Ok (lattice, numbers, pos, pol)
  | p :: paths' =>
      let* (l, z, x, a) := read_fn p in
      let* _ :=
        if Nat.eqb index 0 then Ok tt
        else
          let* c := np_allclose lattice l in
          if negb c then Err IncompatibleStructureException
          else if negb (znumbers_eqb numbers z) then Err IncompatibleStructureException
          else match pos with
               | [] => Err IndexError
               | x0 :: _ => if negb (shape_eqb (na_shape x0) (na_shape x)) then Err IncompatibleStructureException
                            else Ok tt
               end in
      dataset_loop (S index) l z (pos ++ [x]) (pol ++ [a]) paths'
  end.
(** io/_utils.py:99-160 [_read_polarizability_dataset], with 47-59 [pathify_as_list] (a single
    path is a list of one).  [torch] says whether PyTorch is installed. *)
Definition read_dataset (torch : bool) (cast : num -> num) (paths : list Path) : res dataset :=
  if negb torch then Err UserError
  else match paths with
       | [] => Err ValueError
       | _ =>
           let* (lattice, numbers, pos, pol) :=
             dataset_loop 0 (mkNarr [3; 3] (repeat (Fin 0) 9)) [] [] [] paths in
           let* ps := np_stack pos in
           let* pls := np_stack pol in
           dataset_new cast lattice numbers ps pls
       end.
End Read.

(** ** pymatgen *)
(** What the code reads from a pymatgen Structure *)
Record pm_structure := mkPm { pm_lattice : M3; pm_numbers : list Z; pm_positions : list V3 }.
Definition narr2 (l : list V3) : narr := mkNarr [List.length l; 3] (flat_map (fun v => [Fin (vx v); Fin (vy v); Fin (vz v)]) l).
Definition narr_m3 (m : M3) : narr := narr2 [r0 m; r1 m; r2 m].
(** pymatgen.py:134-145.  [positions[i] = ...] broadcasts a single row. *)
Definition pm_row (n : nat) (l : list V3) : res (list V3) :=
  if Nat.eqb (List.length l) n then Ok l
  else match l with [v] => Ok (repeat v n) | _ => Err ValueError end.
Definition pm_loop (lattice : M3) (numbers : list Z) (l : list pm_structure) : res (list (list V3)) :=
  mapM (fun s =>
    let* c := np_allclose (narr_m3 (pm_lattice s)) (narr_m3 lattice) in
    if negb c then Err IncompatibleStructureException
    else if negb (znumbers_eqb (pm_numbers s) numbers) then Err IncompatibleStructureException
    else pm_row (List.length numbers) (pm_positions s)) l.
(** pymatgen.py:116-146 [construct_polarizability_dataset] *)
Definition construct_dataset (cast : num -> num) (l : list pm_structure) (polarizabilities : narr) : res dataset :=
  let* _ := verify_list_len (List.length l) None in
  let* _ := verify_ndarray_shape (na_shape polarizabilities) [Some (List.length l); Some 3; Some 3] in
  match l with
  | [] => Err IndexError
  | s0 :: _ =>
      let n := List.length (pm_numbers s0) in
      let* ps := pm_loop (pm_lattice s0) (pm_numbers s0) l in
      dataset_new cast (narr_m3 (pm_lattice s0)) (pm_numbers s0)
        (mkNarr [List.length l; n; 3] (flat_map (fun v => [Fin (vx v); Fin (vy v); Fin (vz v)]) (concat ps)))
        polarizabilities
  end.
