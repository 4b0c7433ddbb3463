(** Model of ramannoodle/io/vasp/outcar.py on file contents, with
    [_skip_file_until_line_contains] (ramannoodle/io/_utils.py:28-33).

    An open file is the list of lines that are still to be read, each with its newline.
    Numbers are as in M_Poscar: decimal literals are rounded by [e_fl], later arithmetic is
    exact. *)
From Coq Require Import String Ascii ZArith NArith QArith Qreals Reals Bool Arith List.
From Verif Require Import Base LinAlg Constants M_Validate M_StructUtils M_Text M_Poscar.
Import ListNotations.
Local Open Scope nat_scope.

Definition file := list text.

(** The lines of a text, with their newlines; [for line in file] yields them *)
Fixpoint lines_of (s : text) : file :=
  match s with
  | [] => []
  | c :: s' =>
      if N.eqb c NL then [c] :: lines_of s'
      else match lines_of s' with
           | [] => [[c]]
           | l :: ls => (c :: l) :: ls
           end
  end.
(** [file.readline()]: "" at the end of the file *)
Definition next_line (f : file) : text * file :=
  match f with [] => ([], []) | l :: f' => (l, f') end.

(** io/_utils.py:28-33 [_skip_file_until_line_contains] *)
Fixpoint skip_until (marker : text) (f : file) : res (text * file) :=
  match f with
  | [] => Err NoMatchingLineFoundException
  | l :: f' => if contains marker l then Ok (l, f') else skip_until marker f'
  end.
(** [except NoMatchingLineFoundException: raise InvalidFileException(...)] *)
Definition or_invalid {A} (msg : text) (r : res A) : res A :=
  match r with
  | Err NoMatchingLineFoundException => Err (InvalidFileException msg)
  | _ => r
  end.

(** ** NumPy arrays built from lists *)
(** [np.array] of a list of lists of floats: ValueError unless all lengths agree *)
Definition np_rows (l : list (list num)) : res narr :=
  match l with
  | [] => Ok (mkNarr [0] [])
  | r :: l' =>
      if forallb (fun x => Nat.eqb (List.length x) (List.length r)) l'
      then Ok (mkNarr [List.length l; List.length r] (concat l)) else Err ValueError
  end.
(** [np.array] of a list of arrays: ValueError unless all shapes agree *)
Definition np_stack (l : list narr) : res narr :=
  match l with
  | [] => Ok (mkNarr [0] [])
  | a :: l' =>
      if forallb (fun x => if list_eq_dec Nat.eq_dec (na_shape x) (na_shape a) then true else false) l'
      then Ok (mkNarr (List.length l :: na_shape a) (concat (map na_data l))) else Err ValueError
  end.
Definition entries3 (v : n3) : list num := [nx v; ny v; nz v].
Definition narr_of_rows (l : list n3) : narr :=
  match l with [] => mkNarr [0] [] | _ => mkNarr [List.length l; 3] (flat_map entries3 l) end.

(** [np.linalg.inv] of an array.  For m by m matrices with m <> 3 the product taken next
    raises ValueError in any case; LinAlgError is one. *)
Definition inv_arr (E : env) (a : narr) : res (list n3) :=
  match na_shape a with
  | [r; c] => if Nat.eqb r c then
                if Nat.eqb r 3 then np_inv E (rows_n3 (na_data a)) else Err ValueError
              else Err LinAlgError
  | _ => Err LinAlgError
  end.
(** [a @ inverse] for an array [a] of rows: ValueError unless its shape is (_,3) *)
Definition matmul_inv (a : narr) (i : list n3) : res narr :=
  match na_shape a with
  | [n; k] => if Nat.eqb k 3
              then Ok (mkNarr [n; 3] (flat_map (fun v => entries3 (row_mul v i)) (rows_n3 (na_data a))))
              else Err ValueError
  | _ => Err ValueError
  end.

(** ** Constructors on possibly non-finite arrays *)
(** dynamics/_phonon.py:31-46 [Phonons.__init__]: reference positions, wavenumbers,
    displacements *)
Definition nphonons : Type := narr * narr * narr.
Definition phonons_of (ref wav disp : narr) : res nphonons :=
  let* _ := verify_ndarray_shape (na_shape ref) [None; Some 3] in
  let* _ := verify_ndarray_shape (na_shape wav) [None] in
  let* _ := verify_ndarray_shape (na_shape disp)
              [Some (hd 0 (na_shape wav)); Some (hd 0 (na_shape ref)); Some 3] in
  Ok (ref, wav, disp).
(** structure/utils.py [apply_pbc] on a float: [inf // 1] is NaN *)
Definition wrap_num (x : num) : num := match x with Fin r => Fin (wrap r) | _ => NaN end.
(** dynamics/_trajectory.py:32-46 [Trajectory.__init__]; a NaN timestep is not [<= 0] *)
Definition ntrajectory : Type := narr * num.
Definition num_le0 (x : num) : bool := match x with Fin r => Rleb r 0 | Inf neg => neg | NaN => false end.
Definition trajectory_of (ts : narr) (timestep : num) : res ntrajectory :=
  let* _ := verify_ndarray_shape (na_shape ts) [None; None; Some 3] in
  if num_le0 timestep then Err ValueError
  else Ok (mkNarr (na_shape ts) (map wrap_num (na_data ts)), timestep).

(** ** Element symbols *)
(** outcar.py:27-43 [_get_atomic_symbol_from_potcar_line]; None: ValueError *)
Definition before_underscore (w : text) : text := fst (break (N.eqb 95) w).
Definition potcar_symbol (line : text) : option text :=
  match rev (split line) with
  | _ :: w :: _ =>
      let symbol := before_underscore w in
      match symbol_number symbol with Some _ => Some symbol | None => None end
  | _ => None
  end.
(** outcar.py:59-62: the lines after the first POTCAR line.  The line that ends the loop is
    consumed. *)
Fixpoint potcar_loop (f : file) : res (list text * file) :=
  match f with
  | [] => Ok ([], [])
  | l :: f' =>
      if contains (txt "POTCAR") l then
        match potcar_symbol l with
        | Some s => let* (ss, r) := potcar_loop f' in Ok (s :: ss, r)
        | None => invalid "POTCAR block could not be parsed: " l
        end
      else Ok ([], f')
  end.
(** outcar.py:46-86 [_read_atomic_symbols]; a count that is not an int raises a bare
    ValueError; [[symbol] * number] is empty for negative numbers; zip stops at the shorter
    list *)
Definition outcar_symbols (f : file) : res (list text * file) :=
  let* (l, f1) := or_invalid (txt "POTCAR block not found") (skip_until (txt "POTCAR:    ") f) in
  match potcar_symbol l with
  | None => invalid "POTCAR block could not be parsed: " l
  | Some s =>
      let* (ss, f2) := potcar_loop f1 in
      let '(l3, f3) := next_line f2 in
      let symbols := if contains (txt "VRHFIN") l3 then removelast (s :: ss) else s :: ss in
      let* (l4, f4) := or_invalid (txt "ion number block could not be parsed: " ++ l3)
                         (skip_until (txt "ions per type") f3) in
      match ints (skipn 4 (split l4)) with
      | None => Err ValueError
      | Some ns => Ok (flat_map (fun p => repeat (fst p) (Z.to_nat (snd p))) (combine symbols ns), f4)
      end
  end.

(** ** Tables *)
(** outcar.py:126-136, 153-162, 184-193, 233-241 (with 196-209), 468-477: [n] lines, the first three
    words of each (fewer if there are fewer) *)
Fixpoint table_rows (E : env) (msg : string) (n : nat) (f : file) : res (list (list num) * file) :=
  match n with
  | O => Ok ([], f)
  | S n' =>
      let '(l, f1) := next_line f in
      match floats E (firstn 3 (split l)) with
      | None => invalid msg l
      | Some r => let* (rs, f2) := table_rows E msg n' f1 in Ok (r :: rs, f2)
      end
  end.
Definition table (E : env) (msg : string) (n : nat) (f : file) : res (narr * file) :=
  let* (rs, f1) := table_rows E msg n f in
  let* a := np_rows rs in
  Ok (a, f1).

(** outcar.py:139-162 [_read_positions] *)
Definition outcar_fractional (E : env) (n : nat) (f : file) : res (narr * file) :=
  let* (_, f1) := or_invalid (txt "fractional positions not found")
     (skip_until (txt "position of ions in fractional coordinates (direct lattice)") f) in
  table E "fractional positions could not be parsed: " n f1.
(** outcar.py:113-136 [_read_cart_positions] (used by no public function) *)
Definition outcar_cartesian (E : env) (n : nat) (f : file) : res (narr * file) :=
  let* (_, f1) := or_invalid (txt "cartesian positions not found")
     (skip_until (txt "position of ions in cartesian coordinates  (Angst):") f) in
  table E "cartesian positions could not be parsed: " n f1.
(** outcar.py:165-193 [_read_polarizability] *)
Definition outcar_polarizability (E : env) (f : file) : res (narr * file) :=
  let* (_, f1) := or_invalid (txt "polarizability not found")
     (skip_until (txt "MACROSCOPIC STATIC DIELECTRIC TENSOR (including local field effects") f) in
  table E "polarizability could not be parsed: " 3 (snd (next_line f1)).
(** outcar.py:212-241 [_read_lattice] *)
Definition outcar_lattice (E : env) (f : file) : res (narr * file) :=
  let* (_, f1) := or_invalid (txt "outcar does not have expected format")
     (let* (_, f0) := skip_until (txt "Write flags") f in
      skip_until (txt "direct lattice vectors      ") f0) in
  table E "lattice could not be parsed: " 3 f1.

(** ** Public readers, on the content of the file *)
Definition outcar_open (content : text) : file := lines_of (universal content).
(** outcar.py:306-337 [read_positions_and_polarizability] *)
Definition outcar_read_positions_and_polarizability (E : env) (content : text) : res (narr * narr) :=
  let* (symbols, f1) := outcar_symbols (outcar_open content) in
  let* (positions, f2) := outcar_fractional E (List.length symbols) f1 in
  let* (polarizability, _) := outcar_polarizability E f2 in
  Ok (positions, polarizability).
(** outcar.py:340-363 [read_positions] *)
Definition outcar_read_positions (E : env) (content : text) : res narr :=
  let* (symbols, f1) := outcar_symbols (outcar_open content) in
  let* (positions, _) := outcar_fractional E (List.length symbols) f1 in
  Ok positions.
(** outcar.py:366-401 [read_structure_and_polarizability]; every symbol was looked up before *)
Definition outcar_read_structure_and_polarizability (E : env) (content : text)
  : res (narr * list Z * narr * narr) :=
  let* (symbols, f1) := outcar_symbols (outcar_open content) in
  let* (lattice, f2) := outcar_lattice E f1 in
  let* (positions, f3) := outcar_fractional E (List.length symbols) f2 in
  let* (polarizability, _) := outcar_polarizability E f3 in
  Ok (lattice, numbers_of symbols, positions, polarizability).
(** outcar.py:429-454 [read_ref_structure]: what is passed to the constructor [mk] of
    ReferenceStructure *)
Definition outcar_read_ref_structure {A} (mk : list Z -> narr -> narr -> res A) (E : env) (content : text)
  : res A :=
  let* (symbols, f1) := outcar_symbols (outcar_open content) in
  let* (lattice, f2) := outcar_lattice E f1 in
  let* (positions, _) := outcar_fractional E (List.length symbols) f2 in
  mk (numbers_of symbols) lattice positions.

(** ** Phonons *)
(** outcar.py:89-110 [_read_eigenvector]: [acc] holds the rows read so far, last first.  The
    line met when all rows are there is consumed.  At the end of the file what was read is
    returned. *)
Fixpoint eigen_loop (E : env) (n : nat) (lattice : narr) (acc : list n3) (f : file)
  : res (list n3 * file) :=
  match f with
  | [] => Ok (rev acc, [])
  | l :: f' =>
      if Nat.eqb (List.length acc) n then Ok (rev acc, f')
      else if contains (txt "X") l then eigen_loop E n lattice acc f'
      else
        match floats E (skipn 3 (split l)), inv_arr E lattice with
        | Some [a; b; c], Ok i => eigen_loop E n lattice (row_mul (mkN3 a b c) i :: acc) f'
        | _, _ => invalid "eigenvector could not be parsed: " l
        end
  end.
Definition num_opp (x : num) : num := match x with Fin r => Fin (- r) | Inf b => Inf (negb b) | NaN => NaN end.
(** [float(line.split()[k])]: InvalidFileException when there is no such word, bare
    ValueError when it is not a number *)
Definition word_float (E : env) (msg : text) (k : nat) (line : text) : res num :=
  match nth_error (split line) k with
  | None => Err (InvalidFileException msg)
  | Some w => match float_of (e_fl E) w with Some x => Ok x | None => Err ValueError end
  end.
(** outcar.py:286-295 *)
Definition read_mode_line (E : env) (f : file) : res (num * file) :=
  let* (l, f1) := or_invalid (txt "eigenvalue could not be parsed") (skip_until (txt "cm-1") f) in
  if contains (txt "f/i") l
  then let* x := word_float E (txt "eigenvalue could not be parsed") 6 l in Ok (num_opp x, f1)
  else let* x := word_float E (txt "eigenvalue could not be parsed") 7 l in Ok (x, f1).
(** outcar.py:285-296 *)
Fixpoint mode_loop (E : env) (k n : nat) (lattice : narr) (f : file) : res (list num * list narr) :=
  match k with
  | O => Ok ([], [])
  | S k' =>
      let* (w, f1) := read_mode_line E f in
      let* (v, f2) := eigen_loop E n lattice [] f1 in
      let* (ws, vs) := mode_loop E k' n lattice f2 in
      Ok (w :: ws, narr_of_rows v :: vs)
  end.

(** [ATOMIC_WEIGHTS[symbol]]: KeyError when absent.  The float literals are taken exactly. *)
Definition atomic_weight (s : text) : res R :=
  match find (fun e => teqb (txt (fst e)) s) atomic_weights with
  | Some e => Ok (Q2R (snd e))
  | None => Err KeyError
  end.
Definition num_div (x : num) (c : R) : num :=
  match x with Fin r => Fin (r / c) | Inf b => Inf b | NaN => NaN end.
Definition n3_div (v : n3) (c : R) : n3 := mkN3 (num_div (nx v) c) (num_div (ny v) c) (num_div (nz v) c).
(** [eigenvectors / np.sqrt(atomic_weights)[:, np.newaxis]] for an array of shape (M,K,3) and
    N weights, with broadcasting.  For other shapes either the division or the constructor of
    Phonons raises ValueError. *)
Fixpoint div_rows (vs : list n3) (ws : list R) : list n3 :=
  match vs, ws with
  | v :: vs', w :: ws' => n3_div v (sqrt w) :: div_rows vs' ws'
  | _, _ => []
  end.
Definition div_frame (vs : list n3) (ws : list R) : res (list n3) :=
  if Nat.eqb (List.length vs) (List.length ws) then Ok (div_rows vs ws)
  else match vs, ws with
       | [v], _ => Ok (map (fun w => n3_div v (sqrt w)) ws)
       | _, [w] => Ok (map (fun v => n3_div v (sqrt w)) vs)
       | _, _ => Err ValueError
       end.
Definition div_weights (ev : narr) (ws : list R) : res narr :=
  match na_shape ev with
  | [m; k; 3] =>
      let* fs := mapM (fun f => div_frame f ws) (frames_n3 ev) in
      Ok (mkNarr [m; if Nat.eqb k 1 then List.length ws else k; 3] (flat_map entries3 (concat fs)))
  | _ => Err ValueError
  end.

(** outcar.py:244-303 [read_phonons] *)
Definition outcar_read_phonons (E : env) (content : text) : res nphonons :=
  let* (symbols, f1) := outcar_symbols (outcar_open content) in
  let* weights := mapM atomic_weight symbols in
  let n := List.length symbols in
  let* (lattice, f2) := outcar_lattice E f1 in
  let* (ref, f3) := outcar_fractional E n f2 in
  let* (_, f4) := or_invalid (txt "eigenvector/eigenvalues block not found")
     (skip_until (txt "Eigenvectors and eigenvalues of the dynamical matrix") f3) in
  let* (ws, vs) := mode_loop E (n * 3) n lattice f4 in
  let* ev := np_stack vs in
  let* disp := div_weights ev weights in
  phonons_of ref (mkNarr [List.length ws] ws) disp.

(** ** Trajectories *)
(** outcar.py:480-494 [_read_timestep] *)
Definition outcar_timestep (E : env) (f : file) : res (num * file) :=
  let* (l, f1) := or_invalid (txt "timestep not found") (skip_until (txt "time-step for ionic-motion") f) in
  let* x := word_float E (txt "timestep could not be parsed: " ++ l) 2 l in
  Ok (x, f1).
(** outcar.py:457-477 [_read_next_cart_positions_ts] *)
Definition outcar_next_cart (E : env) (n : nat) (f : file) : res (narr * file) :=
  table E "Cartesian positions could not be parsed: " n (snd (next_line f)).
Definition position_marker : text := txt "POSITION                                       TOTAL-FORCE ".
(** outcar.py:517-533; [fuel] bounds the number of iterations, every one of which consumes at
    least one line *)
Fixpoint blocks_loop (E : env) (fuel n : nat) (lattice : narr) (ml_step : bool) (f : file)
  : res (list narr) :=
  match fuel with
  | O => Ok []
  | S fuel' =>
      match skip_until position_marker f with
      | Err _ => Ok []
      | Ok (l, f1) =>
          let ml := contains (txt "(ML)") l in
          if ml_step && negb ml then blocks_loop E fuel' n lattice ml f1
          else
            let* (cart, f2) := outcar_next_cart E n f1 in
            let* i := inv_arr E lattice in
            let* p := matmul_inv cart i in
            let* ps := blocks_loop E fuel' n lattice ml f2 in
            Ok (p :: ps)
      end
  end.
(** outcar.py:497-538 [read_trajectory] *)
Definition outcar_read_trajectory (E : env) (content : text) : res ntrajectory :=
  let* (symbols, f1) := outcar_symbols (outcar_open content) in
  let* (timestep, f2) := outcar_timestep E f1 in
  let* (lattice, f3) := outcar_lattice E f2 in
  let* ps := blocks_loop E (S (List.length f3)) (List.length symbols) lattice false f3 in
  match ps with
  | [] => Err (InvalidFileException (txt "no trajectory found"))
  | _ => let* ts := np_stack ps in trajectory_of ts timestep
  end.
