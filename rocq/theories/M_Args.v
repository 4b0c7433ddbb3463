(** Model of argument checking with arbitrary Python values and of the texts of the exceptions:
    ramannoodle/exceptions.py, dataset/torch/utils.py and the checks at the head of constructors
    and methods. *)
From Coq Require Import String ZArith NArith Reals Bool Arith List.
From Verif Require Import Base LinAlg Constants M_Validate M_Text M_Poscar M_Outcar.
Import ListNotations.
Local Open Scope nat_scope.

(** The values a caller may pass.  [VNumber] is an int, float or bool with its type name and its
    value as a float; [VArray] a NumPy array; [VTensor] a PyTorch tensor; [VOther] any other object
    (None, tuple, dict, ...), which has none of the attributes [ndim], [shape] and [size] and is
    neither a number nor ordered against numbers.  Simplification: NumPy scalars are [VArray]s of
    rank 0, sub-classes of list and ndarray are not distinguished. *)
Inductive pyval :=
| VNumber (type : text) (x : num)
| VStr (s : text)
| VList (l : list pyval)
| VArray (shape : list nat) (data : list num)
| VTensor (shape : list nat) (data : list num)
| VOther (type : text).

(** [type(value).__name__] *)
Definition type_name (v : pyval) : text :=
  match v with
  | VNumber t _ => t
  | VStr _ => txt "str"
  | VList _ => txt "list"
  | VArray _ _ => txt "ndarray"
  | VTensor _ _ => txt "Tensor"
  | VOther t => t
  end.

(** A result or an exception with its text *)
Inductive outcome (A : Type) := Done (a : A) | Raise (e : exn) (message : text).
Arguments Done {A} a.
Arguments Raise {A} e message.
Definition obind {A B} (r : outcome A) (f : A -> outcome B) : outcome B :=
  match r with Done a => f a | Raise e m => Raise e m end.
Notation "'let!' x ':=' r 'in' k" := (obind r (fun x => k)) (at level 200, x pattern, right associativity).

(** An entry of a required shape: None, an int, or the bound method [Tensor.size] *)
Inductive sdim := SAny | SDim (n : nat) | SMethod.

Section Args.
(** the text of a bound method (contains an address) *)
Variable method_text : text.
(** [f"{value}"] *)
Variable show : pyval -> text.
(** texts of exceptions raised by NumPy and Python *)
Variable ambiguous bad_float unhashable : pyval -> text.
(** rounding of decimal numbers to floats, see M_Text *)
Variable fl : R -> num.

(** [f"{i}"] in exceptions.py:51 *)
Definition show_dim (d : sdim) : text :=
  match d with SAny => txt "_" | SDim n => str_int (Z.of_nat n) | SMethod => method_text end.

(** exceptions.py:41-55 [_shape_string] with the brackets as arguments;
    dataset/torch/utils.py:63-81 [_get_tensor_size_str] is the same with square brackets *)
Definition bracket_string (left right : text) (shape : list sdim) : text :=
  let result := left ++ flat_map (fun i => show_dim i ++ txt ",") shape in
  if length shape =? 1 then result ++ right else removelast result ++ right.
Definition shape_string := bracket_string (txt "(") (txt ")").
Definition tensor_size_str := bracket_string (txt "[") (txt "]").

(** exceptions.py:58-64 [get_type_error] *)
Definition type_error (name : text) (v : pyval) (correct : text) : exn * text :=
  (TypeError, name ++ txt " should have type " ++ correct ++ txt ", not " ++ type_name v).
Definition raise {A} (e : exn * text) : outcome A := Raise (fst e) (snd e).

(** exceptions.py:67-73 [get_shape_error]; [dims] is [array.shape] *)
Definition shape_error (name : text) (dims : list nat) (desired : text) : exn * text :=
  (ValueError, name ++ txt " has wrong shape: " ++ shape_string (map SDim dims) ++ txt " != " ++ desired).

(** [value.shape] ([value.ndim] is its length); None: AttributeError *)
Definition shape_of (v : pyval) : option (list nat) :=
  match v with VArray s _ | VTensor s _ => Some s | _ => None end.

(** exceptions.py:76-83 [verify_ndarray] *)
Definition verify_ndarray (name : text) (v : pyval) : outcome unit :=
  match shape_of v with Some _ => Done tt | None => raise (type_error name v (txt "ndarray")) end.

(** [d2 is not None and d1 != d2]; an int differs from a method *)
Definition dim_differs (d1 : nat) (d2 : sdim) : bool :=
  match d2 with SAny => false | SDim n => negb (d1 =? n) | SMethod => true end.

(** exceptions.py:86-105 [verify_ndarray_shape] *)
Definition verify_shape (name : text) (v : pyval) (shape : list sdim) : outcome unit :=
  match shape_of v with
  | None => raise (type_error name v (txt "ndarray"))
  | Some dims =>
      if negb (length shape =? length dims) then raise (shape_error name dims (shape_string shape))
      else if existsb (fun p => dim_differs (fst p) (snd p)) (combine dims shape)
      then raise (shape_error name dims (shape_string shape))
      else Done tt
  end.

(** exceptions.py:108-123 [verify_list_len]; returns the list *)
Definition verify_list (name : text) (v : pyval) (required : option nat) : outcome (list pyval) :=
  match v with
  | VList l =>
      match required with
      | Some n =>
          if int_is (Z.of_nat (length l)) (Z.of_nat n) then Done l
          else Raise ValueError (name ++ txt " has wrong length: " ++ str_int (Z.of_nat (length l)) ++ txt " != length")
      | None => Done l
      end
  | _ => raise (type_error name v (txt "list"))
  end.

(** [(0 > a).any() or (a > 1.0).any()] *)
Definition leaves_cell (v : pyval) : bool :=
  match v with
  | VArray _ d | VTensor _ d => existsb (fun x => num_lt x 0 || num_gt x 1) d
  | _ => false
  end.

(** exceptions.py:126-134 [verify_positions] *)
Definition verify_positions_v (name : text) (v : pyval) : outcome unit :=
  let! _ := verify_shape name v [SAny; SDim 3] in
  if leaves_cell v then Raise ValueError (name ++ txt " has coordinates that are not between 0 and 1") else Done tt.

(** dataset/torch/utils.py:84-110 [get_tensor_size_error], [verify_tensor_size].  For a NumPy array
    [tensor.size()] calls an int: TypeError, which no clause catches. *)
Definition verify_tensor_size (name : text) (v : pyval) (size : list sdim) : outcome unit :=
  match v with
  | VTensor dims _ =>
      let error := Raise ValueError (name ++ txt " has wrong size: " ++ tensor_size_str (map SDim dims) ++ txt " != " ++ tensor_size_str size) in
      if negb (length size =? length dims) then error
      else if existsb (fun p => dim_differs (fst p) (snd p)) (combine dims size) then error
      else Done tt
  | VArray _ _ => Raise TypeError (txt "'int' object is not callable")
  | _ => raise (type_error name v (txt "Tensor"))
  end.

(** [value.size] as an entry of a required shape *)
Definition size_entry (v : pyval) : sdim :=
  match v with VArray s _ => SDim (prod_list s) | _ => SMethod end.
(** [len(value)], [value.shape[0]] of a value with at least one dimension *)
Definition len_of (v : pyval) : nat := match shape_of v with Some (n :: _) => n | _ => 0 end.

(** structure/_reference.py:106-108: the checks of [ReferenceStructure] *)
Definition reference_checks (atomic_numbers lattice positions : pyval) : outcome unit :=
  let! numbers := verify_list (txt "atomic_numbers") atomic_numbers None in
  let! _ := verify_shape (txt "lattice") lattice [SDim 3; SDim 3] in
  verify_shape (txt "positions") positions [SDim (length numbers); SDim 3].

(** dynamics/_phonon.py:37-43: the checks of [Phonons] *)
Definition phonons_checks (ref_positions wavenumbers displacements : pyval) : outcome unit :=
  let! _ := verify_shape (txt "ref_positions") ref_positions [SAny; SDim 3] in
  let! _ := verify_shape (txt "wavenumbers") wavenumbers [SAny] in
  verify_shape (txt "displacements") displacements [size_entry wavenumbers; SDim (len_of ref_positions); SDim 3].

(** [float(value)]; the int overflow is not modelled, nor are tensors with several elements *)
Definition to_float (v : pyval) : outcome num :=
  match v with
  | VNumber _ x => Done x
  | VStr s => match float_of fl s with Some x => Done x | None => Raise ValueError (bad_float v) end
  | VArray _ [x] | VTensor _ [x] => Done x
  | _ => Raise TypeError []
  end.

(** dynamics/_trajectory.py:37-43: the checks of [Trajectory]; returns the time step *)
Definition trajectory_checks (positions_ts timestep : pyval) : outcome num :=
  let! _ := verify_shape (txt "positions_ts") positions_ts [SAny; SAny; SDim 3] in
  let! t := match to_float timestep with
            | Raise TypeError _ => raise (type_error (txt "timestep") timestep (txt "float"))
            | r => r
            end in
  if num_le0 t then Raise ValueError (txt "timestep must be positive") else Done t.

(** spectrum/_raman.py:92-95: the checks of [PhononRamanSpectrum] *)
Definition phonon_spectrum_checks (phonon_wavenumbers raman_tensors : pyval) : outcome unit :=
  let! _ := verify_shape (txt "phonon_wavenumbers") phonon_wavenumbers [SAny] in
  verify_shape (txt "raman_tensors") raman_tensors [SDim (len_of phonon_wavenumbers); SDim 3; SDim 3].

(** spectrum/_raman.py:212-216: the checks of [MDRamanSpectrum]; the time step is not looked at *)
Definition md_spectrum_checks (polarizability_ts timestep : pyval) : outcome unit :=
  verify_shape (txt "polarizability_ts") polarizability_ts [SAny; SDim 3; SDim 3].

(** [np.zeros(shape)] *)
Definition np_zeros (shape : list nat) : pyval := VArray shape (repeat (Fin 0) (prod_list shape)).

(** pmodel/_interpolation.py:106-108: the checks of [InterpolationModel] *)
Definition model_checks (is_dummy : bool) (ref_polarizability : pyval) : outcome unit :=
  let ref_polarizability := if is_dummy then np_zeros [3; 3] else ref_polarizability in
  verify_shape (txt "ref_polarizability") ref_polarizability [SDim 3; SDim 3].

(** pmodel/_interpolation.py:188: the setter of [mask]; [dofs] is the length of the present mask *)
Definition mask_checks (dofs : nat) (value : pyval) : outcome unit :=
  verify_shape (txt "mask") value [SDim dofs].

(** pmodel/_interpolation.py:453-464: the checks of [add_dof].  The [except TypeError] replaces the
    text of [get_frac_displacement] (structure/_reference.py:321). *)
Definition add_dof_checks (is_dummy : bool) (cart_displacement amplitudes polarizabilities : pyval) : outcome unit :=
  let! _ := match verify_shape (txt "cart_displacement") cart_displacement [SAny; SDim 3] with
            | Raise TypeError _ => Raise TypeError (txt "displacement is not an ndarray")
            | r => r
            end in
  let! _ := verify_shape (txt "amplitudes") amplitudes [SAny] in
  let polarizabilities := if is_dummy then np_zeros [len_of amplitudes; 3; 3] else polarizabilities in
  verify_shape (txt "polarizabilities") polarizabilities [SDim (len_of amplitudes); SDim 3; SDim 3].

(** [isinstance(value, int)]: ints and bools *)
Definition is_int (v : pyval) : bool :=
  match v with VNumber t _ => teqb t (txt "int") || teqb t (txt "bool") | _ => false end.

(** pmodel/_art.py:173-185: the checks of [add_art].  [get_frac_direction]
    (structure/_reference.py:340) calls its argument "direction".  With a tensor as amplitudes
    [np.zeros] of a dummy model gets a method as a dimension: TypeError. *)
Definition add_art_checks (is_dummy : bool) (atom_index cart_direction amplitudes polarizabilities : pyval) : outcome unit :=
  let! _ := verify_shape (txt "direction") cart_direction [SDim 3] in
  if negb (is_int atom_index) then raise (type_error (txt "atom_index") atom_index (txt "int"))
  else
    let! dims := match shape_of amplitudes with
                 | None => raise (type_error (txt "amplitudes") amplitudes (txt "ndarray"))
                 | Some dims =>
                     if existsb (fun d => if list_eq_dec Nat.eq_dec dims d then true else false) [[1]; [2]] then Done dims
                     else raise (shape_error (txt "amplitudes") dims (txt "(1,) or (2,)"))
                 end in
    let! polarizabilities :=
      if is_dummy then
        match size_entry amplitudes with
        | SDim n => Done (np_zeros [n; 3; 3])
        | _ => Raise TypeError method_text
        end
      else Done polarizabilities in
    verify_shape (txt "polarizabilities") polarizabilities [size_entry amplitudes; SDim 3; SDim 3].

(** dataset/torch/_dataset.py:95-100: the checks of [PolarizabilityDataset] *)
Definition dataset_checks (lattice atomic_numbers positions polarizabilities : pyval) : outcome unit :=
  let! _ := verify_shape (txt "lattice") lattice [SDim 3; SDim 3] in
  let! numbers := verify_list (txt "atomic_numbers") atomic_numbers None in
  let! _ := verify_shape (txt "positions") positions [SAny; SDim (length numbers); SDim 3] in
  verify_shape (txt "polarizabilities") polarizabilities [SDim (len_of positions); SDim 3; SDim 3].

(** dataset/torch/_dataset.py:209-210: the checks of [scale_polarizabilities]; both arguments are
    called "mean" *)
Definition scale_checks (mean stddev : pyval) : outcome unit :=
  let! _ := verify_shape (txt "mean") mean [SDim 3; SDim 3] in
  verify_shape (txt "mean") stddev [SDim 3; SDim 3].

(** pmodel/torch/_gnn.py:481-482: the checks of the polarizability arguments of [PotGNN] *)
Definition potgnn_checks (mean stddev : pyval) : outcome unit :=
  let! _ := verify_shape (txt "mean_polarizability") mean [SDim 3; SDim 3] in
  verify_shape (txt "stddev_polarizability") stddev [SDim 3; SDim 3].

(** pmodel/torch/_gnn.py:683-685: the check of [PotGNN.calc_polarizabilities] *)
Definition potgnn_positions_checks (num_atoms : nat) (positions_batch : pyval) : outcome unit :=
  verify_shape (txt "positions_batch") positions_batch [SAny; SDim num_atoms; SDim 3].

(** A number equal to a key of [ATOM_SYMBOLS] (constants.py:246) *)
Definition is_key (x : R) : bool :=
  existsb (fun z => if Req_EM_T x (IZR z) then true else false) (map snd atomic_numbers).
(** [value not in ATOM_SYMBOLS.keys()]: numbers are compared by value (14.0 and True are keys),
    strings, tensors and other objects are not keys, lists and arrays cannot be hashed *)
Definition not_a_key (v : pyval) : outcome bool :=
  match v with
  | VNumber _ (Fin x) => Done (negb (is_key x))
  | VNumber _ _ | VStr _ | VTensor _ _ | VOther _ => Done true
  | VList _ | VArray _ _ => Raise TypeError (unhashable v)
  end.

(** io/_utils.py:73-75, 91-93: the loop over atomic numbers *)
Fixpoint verify_numbers (l : list pyval) : outcome unit :=
  match l with
  | [] => Done tt
  | v :: l' =>
      let! bad := not_a_key v in
      if bad then Raise ValueError (txt "invalid atomic number: " ++ show v) else verify_numbers l'
  end.

(** io/_utils.py:62-77 [verify_structure] *)
Definition verify_structure_v (lattice atomic_numbers positions : pyval) : outcome unit :=
  let! _ := verify_shape (txt "lattice") lattice [SDim 3; SDim 3] in
  let! numbers := verify_list (txt "atomic_numbers") atomic_numbers None in
  let! _ := verify_numbers numbers in
  let! _ := verify_shape (txt "positions") positions [SDim (length numbers); SDim 3] in
  verify_positions_v (txt "positions") positions.

(** io/_utils.py:80-96 [verify_trajectory] *)
Definition verify_trajectory_v (lattice atomic_numbers positions_ts : pyval) : outcome unit :=
  let! _ := verify_shape (txt "lattice") lattice [SDim 3; SDim 3] in
  let! numbers := verify_list (txt "atomic_numbers") atomic_numbers None in
  let! _ := verify_numbers numbers in
  let! _ := verify_shape (txt "positions_ts") positions_ts [SAny; SDim (length numbers); SDim 3] in
  if leaves_cell positions_ts then Raise ValueError (txt "positions_ts has coordinates that are not between 0 and 1")
  else Done tt.

(** [value <= 0] as a condition.  Simplification: an empty array counts as ambiguous (a deprecation
    in older NumPy). *)
Definition at_most_zero (v : pyval) : outcome bool :=
  match v with
  | VNumber _ x => Done (num_le0 x)
  | VArray _ [x] | VTensor _ [x] => Done (num_le0 x)
  | VArray _ _ | VTensor _ _ => Raise ValueError (ambiguous v)
  | _ => Raise TypeError []
  end.

(** spectrum/utils.py:50-54, spectrum/_raman.py:31-35, 61-65: the check of a positive number *)
Definition verify_positive (name : text) (v : pyval) : outcome unit :=
  match at_most_zero v with
  | Done true => Raise ValueError (txt "invalid " ++ name ++ txt ": " ++ show v ++ txt " <= 0")
  | Done false => Done tt
  | Raise TypeError _ => raise (type_error name v (txt "float"))
  | Raise e m => Raise e m
  end.

(** spectrum/utils.py:47-55: the checks of [convolve_spectrum] with an explicit grid *)
Definition convolve_checks (wavenumbers intensities width out_wavenumbers : pyval) : outcome unit :=
  let! _ := verify_shape (txt "out_wavenumbers") out_wavenumbers [SAny] in
  let! _ := verify_shape (txt "wavenumbers") wavenumbers [SAny] in
  let! _ := verify_shape (txt "intensities") intensities [SDim (len_of wavenumbers)] in
  let! _ := verify_positive (txt "width") width in
  verify_ndarray (txt "out_wavenumbers") out_wavenumbers.

End Args.
