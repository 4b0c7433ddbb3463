(** Model of ramannoodle/io/vasp/poscar.py, ramannoodle/io/vasp/xdatcar.py and the
    validators of ramannoodle/io/_utils.py, on file contents.

    Decimal literals are rounded to floats by [e_fl]; later arithmetic on floats (scaling,
    matrix products, inverse) is exact.  The inverse of a matrix with non-finite entries is
    whatever [e_inv] says ([None]: LinAlgError). *)
From Coq Require Import String Ascii ZArith NArith Reals Bool Arith List.
From Verif Require Import Base LinAlg Constants M_Validate M_Text.
Import ListNotations.

Record n3 := mkN3 { nx : num; ny : num; nz : num }.
Record env := mkEnv {
  e_fl : R -> num;
  e_inv : list n3 -> option (list n3);
  e_printable : N -> bool }.

(** ** Float arithmetic with non-finite values *)
Definition num_add (x y : num) : num :=
  match x, y with
  | Fin a, Fin b => Fin (a + b)%R
  | NaN, _ => NaN
  | _, NaN => NaN
  | Inf a, Inf b => if Bool.eqb a b then Inf a else NaN
  | Inf a, Fin _ => Inf a
  | Fin _, Inf b => Inf b
  end.
Definition num_mul (x y : num) : num :=
  match x, y with
  | Fin a, Fin b => Fin (a * b)%R
  | NaN, _ => NaN
  | _, NaN => NaN
  | Inf a, Inf b => Inf (xorb a b)
  | Inf a, Fin b => if Req_EM_T b 0 then NaN else Inf (xorb a (Rltb b 0))
  | Fin a, Inf b => if Req_EM_T a 0 then NaN else Inf (xorb (Rltb a 0) b)
  end.
(** [x < c] and [c < x]; comparisons with NaN are false *)
Definition num_lt (x : num) (c : R) : bool :=
  match x with Fin r => Rltb r c | Inf neg => neg | NaN => false end.
Definition num_gt (x : num) (c : R) : bool :=
  match x with Fin r => Rltb c r | Inf neg => negb neg | NaN => false end.
Definition n3_scale (c : num) (v : n3) : n3 := mkN3 (num_mul (nx v) c) (num_mul (ny v) c) (num_mul (nz v) c).

Definition fin3 (v : V3) : n3 := mkN3 (Fin (vx v)) (Fin (vy v)) (Fin (vz v)).
Definition rows3 (m : M3) : list n3 := [fin3 (r0 m); fin3 (r1 m); fin3 (r2 m)].
Definition finite3 (v : n3) : option V3 :=
  match nx v, ny v, nz v with Fin a, Fin b, Fin c => Some (mkV a b c) | _, _, _ => None end.
Definition finite33 (l : list n3) : option M3 :=
  match l with
  | [a; b; c] => match finite3 a, finite3 b, finite3 c with
                 | Some x, Some y, Some z => Some (mkM x y z)
                 | _, _, _ => None
                 end
  | _ => None
  end.

(** [np.linalg.inv] *)
Definition np_inv (E : env) (l : list n3) : res (list n3) :=
  match finite33 l with
  | Some m => rmap rows3 (minv m)
  | None => match e_inv E l with Some i => Ok i | None => Err LinAlgError end
  end.
(** one row of [positions @ inverse] *)
Definition row_mul (v : n3) (m : list n3) : n3 :=
  let a := nth 0 m (mkN3 NaN NaN NaN) in
  let b := nth 1 m (mkN3 NaN NaN NaN) in
  let c := nth 2 m (mkN3 NaN NaN NaN) in
  let f := fun p => num_add (num_mul (nx v) (p a)) (num_add (num_mul (ny v) (p b)) (num_mul (nz v) (p c))) in
  mkN3 (f nx) (f ny) (f nz).

(** [[float(item) for item in line.split()[0:3]]]; None: ValueError *)
Fixpoint floats (E : env) (ws : list text) : option (list num) :=
  match ws with
  | [] => Some []
  | w :: ws' => match float_of (e_fl E) w with
                | Some x => option_map (cons x) (floats E ws')
                | None => None
                end
  end.
Definition invalid {A} (msg : string) (detail : text) : res A :=
  Err (InvalidFileException (txt msg ++ detail)).

(** poscar.py:33-41 and 106-116, outcar.py:204-207: one line of three numbers *)
Definition read_row (E : env) (msg : string) (s : text) : res (n3 * text) :=
  let '(line, rest) := readline s in
  match floats E (firstn 3 (split line)) with
  | Some [a; b; c] => Ok (mkN3 a b c, rest)
  | _ => invalid msg line
  end.
Fixpoint read_rows (E : env) (msg : string) (n : nat) (s : text) : res (list n3 * text) :=
  match n with
  | O => Ok ([], s)
  | S n' =>
      let* (v, s1) := read_row E msg s in
      let* (vs, s2) := read_rows E msg n' s1 in
      Ok (v :: vs, s2)
  end.

(** poscar.py:18-43 [_read_lattice] *)
Definition read_lattice (E : env) (s : text) : res (list n3 * text) :=
  let '(_, s1) := readline s in
  let '(line, s2) := readline s1 in
  match float_of (e_fl E) line with
  | None => invalid "scale factor could not be parsed: " line
  | Some scale =>
      let* (l, s3) := read_rows E "lattice could not be parsed: " 3 s2 in
      Ok (map (n3_scale scale) l, s3)
  end.

(** [symbol in ATOMIC_NUMBERS] and [ATOMIC_NUMBERS[symbol]] *)
Definition symbol_number (s : text) : option Z :=
  match find (fun e => teqb (txt (fst e)) s) atomic_numbers with
  | Some e => Some (snd e)
  | None => None
  end.

Fixpoint ints (ws : list text) : option (list Z) :=
  match ws with
  | [] => Some []
  | w :: ws' => match int_of w with
                | Some x => option_map (cons x) (ints ws')
                | None => None
                end
  end.

(** poscar.py:46-79 [_read_atomic_symbols]; [[symbol] * count] is empty for negative
    counts *)
Definition read_atomic_symbols (s : text) : res (list text * text) :=
  let '(line, s1) := readline s in
  let symbols := split line in
  match symbols with
  | [] => invalid "no atom symbols found" []
  | _ =>
      match find (fun w => match symbol_number w with Some _ => false | None => true end) symbols with
      | Some w => invalid "unrecognized atom symbol: " w
      | None =>
          let '(line2, s2) := readline s1 in
          let counts := split line2 in
          if negb (Nat.eqb (List.length counts) (List.length symbols)) then
            invalid "wrong number of ion counts: "
              (str_int (Z.of_nat (List.length counts)) ++ txt " != " ++ str_int (Z.of_nat (List.length symbols)))
          else
            match ints counts with
            | None => invalid "could not parse counts: " line2
            | Some cs =>
                Ok (flat_map (fun p => repeat (fst p) (Z.to_nat (snd p))) (combine symbols cs), s2)
            end
      end
  end.

Definition quote : text := [39%N].
(** poscar.py:92-103: the coordinate-format line(s); true: Cartesian *)
Definition read_mode (s : text) : res (bool * text) :=
  let '(label, s1) := readline s in
  match label with
  | [] => invalid "missing first character in coordinate format: '" (label ++ quote)
  | c :: _ =>
      if is_space c then invalid "missing first character in coordinate format: '" (label ++ quote)
      else
        let '(label', s2) := if N.eqb (lower c) 115 then readline s1 else (label, s1) in
        match label' with
        | [] => Err IndexError
        | c' :: _ =>
            if N.eqb (lower c') 99 then Ok (true, s2)
            else if N.eqb (lower c') 100 then Ok (false, s2)
            else invalid "unrecognized coordinate format: " label'
        end
  end.

(** poscar.py:82-120 [_read_positions]; multiplying an empty (0,) array by a (3,3) matrix
    raises ValueError *)
Definition read_positions_from (E : env) (lattice : list n3) (num_atoms : nat) (s : text)
  : res (list n3 * text) :=
  let* (cart, s1) := read_mode s in
  let* (rows, s2) := read_rows E "positions could not be parsed: " num_atoms s1 in
  if cart then
    let* i := np_inv E lattice in
    match rows with
    | [] => Err ValueError
    | _ => Ok (map (fun v => row_mul v i) rows, s2)
    end
  else Ok (rows, s2).

(** poscar.py:123-149 [read_positions] on the content of the file *)
Definition read_positions (E : env) (content : text) : res (list n3) :=
  let* (lattice, s1) := read_lattice E (universal content) in
  let* (symbols, s2) := read_atomic_symbols s1 in
  let* (positions, _) := read_positions_from E lattice (List.length symbols) s2 in
  Ok positions.

Definition numbers_of (symbols : list text) : list Z :=
  map (fun w => match symbol_number w with Some z => z | None => 0%Z end) symbols.

(** poscar.py:152-174 [read_structure]; every symbol was looked up before, so
    [ATOMIC_NUMBERS[symbol]] cannot fail *)
Definition read_structure (E : env) (content : text) : res (list n3 * list Z * list n3) :=
  let* (lattice, s1) := read_lattice E (universal content) in
  let* (symbols, s2) := read_atomic_symbols s1 in
  let* (positions, _) := read_positions_from E lattice (List.length symbols) s2 in
  Ok (lattice, numbers_of symbols, positions).

(** xdatcar.py:48-55: the loop of [read_positions_ts].  It ends when an
    InvalidFileException carries the quoted message.  [fuel] bounds the number of
    iterations; every successful iteration consumes its label line. *)
Definition stop_message : text := txt "missing first character in coordinate format:".
Fixpoint read_configs (E : env) (fuel : nat) (lattice : list n3) (n : nat) (s : text)
  : res (list (list n3)) :=
  match fuel with
  | O => Ok []
  | S f =>
      match read_positions_from E lattice n s with
      | Ok (p, s') => let* ps := read_configs E f lattice n s' in Ok (p :: ps)
      | Err (InvalidFileException msg) =>
          if contains stop_message msg then Ok [] else Err (InvalidFileException msg)
      | Err e => Err e
      end
  end.

(** xdatcar.py:21-56 [read_positions_ts] on the content of the file *)
Definition read_positions_ts (E : env) (content : text) : res (list (list n3)) :=
  let* (lattice, s1) := read_lattice E (universal content) in
  let* (symbols, s2) := read_atomic_symbols s1 in
  read_configs E (S (List.length s2)) lattice (List.length symbols) s2.

(** ** Writers *)
(** poscar.py:204-219 [_get_symbols_str]: unique numbers in order of appearance *)
Fixpoint group_loop (unique : list Z) (current : Z) (l : list Z) : res (list Z) :=
  match l with
  | [] => Ok (unique ++ [current])
  | n :: l' =>
      if negb (Z.eqb n current) && existsb (Z.eqb n) unique then Err ValueError
      else if negb (Z.eqb n current) then group_loop (unique ++ [current]) n l'
      else group_loop unique current l'
  end.
Fixpoint join (sep : text) (l : list text) : text :=
  match l with
  | [] => []
  | [a] => a
  | a :: l' => a ++ sep ++ join sep l'
  end.
Definition count_of (n : Z) (l : list Z) : nat := List.length (filter (Z.eqb n) l).
Definition get_symbols_str (numbers : list Z) : res text :=
  match numbers with
  | [] => Err IndexError
  | current :: _ =>
      let* unique := group_loop [] current numbers in
      let* symbols := mapM (fun n => rmap txt (atom_symbol n)) unique in
      Ok (txt "   " ++ join (txt "  ") symbols ++ [NL]
          ++ txt "   " ++ join (txt "   ") (map (fun n => str_int (Z.of_nat (count_of n numbers))) unique) ++ [NL])
  end.

(** poscar.py:222-235 [_get_lattice_str], [_get_positions_str] *)
Definition row_str (indent : text) (v : n3) : text :=
  indent ++ fmt_f16 (nx v) ++ txt "   " ++ fmt_f16 (ny v) ++ txt "   " ++ fmt_f16 (nz v) ++ [NL].
Definition lattice_str (l : list n3) : text := flat_map (row_str (txt "     ")) l.
Definition positions_str (l : list n3) : text := flat_map (row_str (txt "  ")) l.

(** A float array: shape and row-major entries; its rows and frames *)
Record narr := mkNarr { na_shape : list nat; na_data : list num }.
Definition narr_wf (a : narr) : Prop := List.length (na_data a) = prod_list (na_shape a).
Fixpoint rows_n3 (l : list num) : list n3 :=
  match l with
  | a :: b :: c :: l' => mkN3 a b c :: rows_n3 l'
  | _ => []
  end.
Fixpoint chunks (n s : nat) (l : list n3) : list (list n3) :=
  match s with
  | O => []
  | S s' => firstn n l :: chunks n s' (skipn n l)
  end.
Definition frames_n3 (a : narr) : list (list n3) :=
  chunks (nth 1 (na_shape a) 0) (nth 0 (na_shape a) 0) (rows_n3 (na_data a)).

(** [(0 > a).any() or (a > 1.0).any()] *)
Definition outside (a : narr) : bool := existsb (fun x => num_lt x 0 || num_gt x 1) (na_data a).
Definition unknown_number (n : Z) : bool :=
  match atom_symbol_opt n with None => true | Some _ => false end.

(** io/_utils.py:62-77 [verify_structure], with exceptions.py:126-134 [verify_positions] *)
Definition verify_structure (lattice : narr) (numbers : list Z) (positions : narr) : res unit :=
  let* _ := verify_ndarray_shape (na_shape lattice) [Some 3; Some 3] in
  let* _ := verify_list_len (List.length numbers) None in
  if existsb unknown_number numbers then Err ValueError
  else
    let* _ := verify_ndarray_shape (na_shape positions) [Some (List.length numbers); Some 3] in
    let* _ := verify_ndarray_shape (na_shape positions) [None; Some 3] in
    if outside positions then Err ValueError else Ok tt.

(** io/_utils.py:80-96 [verify_trajectory] *)
Definition verify_trajectory (lattice : narr) (numbers : list Z) (positions_ts : narr) : res unit :=
  let* _ := verify_ndarray_shape (na_shape lattice) [Some 3; Some 3] in
  let* _ := verify_list_len (List.length numbers) None in
  if existsb unknown_number numbers then Err ValueError
  else
    let* _ := verify_ndarray_shape (na_shape positions_ts) [None; Some (List.length numbers); Some 3] in
    if outside positions_ts then Err ValueError else Ok tt.

Definition header (E : env) (label : text) (lat sym : text) : list text :=
  [repr_body (e_printable E) label ++ [NL]; txt "   1.00000000000000" ++ [NL]; lat; sym].

(** poscar.py:263-279 [write_structure]: the pieces passed to [file.write], computed before
    the file is opened *)
Definition structure_pieces (E : env) (lattice : narr) (numbers : list Z) (positions : narr) (label : text)
  : res (list text) :=
  let* _ := verify_structure lattice numbers positions in
  let* sym := get_symbols_str numbers in
  Ok (header E label (lattice_str (rows_n3 (na_data lattice))) sym
      ++ [txt "Direct" ++ [NL]; positions_str (rows_n3 (na_data positions))]).

(** xdatcar.py:125: [f"Direct configuration= {index+1:>6}\n"] *)
Definition config_label (i : nat) : text :=
  txt "Direct configuration= " ++ pad_left 6 (str_int (Z.of_nat (S i))) ++ [NL].
Fixpoint config_pieces (i : nat) (frames : list (list n3)) : list text :=
  match frames with
  | [] => []
  | f :: fs => config_label i :: positions_str f :: config_pieces (S i) fs
  end.
(** xdatcar.py:110-128 [write_trajectory].  The configurations are formatted while the file
    is open; formatting cannot fail. *)
Definition trajectory_pieces (E : env) (lattice : narr) (numbers : list Z) (positions_ts : narr) (label : text)
  : res (list text) :=
  let* _ := verify_trajectory lattice numbers positions_ts in
  let* sym := get_symbols_str numbers in
  Ok (header E label (lattice_str (rows_n3 (na_data lattice))) sym
      ++ config_pieces 0 (frames_n3 positions_ts)).
