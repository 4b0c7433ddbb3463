(** Model of ramannoodle/structure/_displace.py. *)
From Coq Require Import String Ascii ZArith NArith Reals Bool Arith List.
From Verif Require Import Base LinAlg M_Validate M_StructUtils M_Symmetry M_Reference M_Text M_Poscar M_Files.
Import ListNotations.
Local Open Scope R_scope.

(** A float array passed as displacement: an array with shape (M,3), or one with any other
    shape *)
Inductive darr := Rows (a : arr V3) | OtherShape.

(** [a / float(np.linalg.norm(a))]: zero over zero is NaN *)
Definition unit_rows (a : arr V3) : arr V3 :=
  match a with
  | M_Symmetry.Fin l =>
      if Reqb (rows_norm l) 0 then match l with [] => M_Symmetry.Fin [] | _ => Nan (List.length l) end
      else M_Symmetry.Fin (rows_scale (/ rows_norm l) l)
  | Nan n => Nan n
  end.

(** [ref_structure.get_frac_displacement(a * amplitude)] (_reference.py:309-323) *)
Definition frac_displacement (r : refstruct) (a : darr) (amplitude : R) : res (arr V3) :=
  match a with
  | OtherShape => Err ValueError
  | Rows (M_Symmetry.Fin l) => rmap (@M_Symmetry.Fin V3) (get_frac_displacement r (rows_scale amplitude l))
  | Rows (Nan n) => let* _ := minv (rs_lattice r) in Ok (Nan n)
  end.
(** [displace_positions] with a possibly-NaN displacement *)
Definition displace_arr (p : list V3) (d : arr V3) : res (arr V3) :=
  match d with
  | M_Symmetry.Fin l => rmap (@M_Symmetry.Fin V3) (displace_positions p l)
  | Nan n => rmap (fun s => Nan (List.length s)) (displace_positions p (repeat v0 n))
  end.

Definition darr_map (f : arr V3 -> arr V3) (d : darr) : darr :=
  match d with Rows a => Rows (f a) | OtherShape => OtherShape end.

(** _displace.py:31-74 [get_displaced_positions].  [amplitudes]: None when the array is not
    one-dimensional.  The [except ValueError] clause also catches LinAlgError. *)
Definition get_displaced_positions (r : refstruct) (cart_displacement : darr) (amplitudes : option (list R))
  : res (list (arr V3)) :=
  let unit := darr_map unit_rows cart_displacement in
  match amplitudes with
  | None => Err ValueError
  | Some amps =>
      mapM (fun amplitude =>
        let* displacement :=
          match frac_displacement r unit amplitude with
          | Ok d => Ok d
          | Err e => if is_value_error e then Err ValueError else Err e
          end in
        displace_arr (rs_positions r) displacement) amps
  end.

(** _displace.py:120-157 [get_ast_displaced_positions], for a (3,) direction.  A NaN row makes
    the norm NaN and hence every row NaN. *)
Definition get_ast_displaced_positions (r : refstruct) (atom_index : Z) (cart_direction : V3)
    (amplitudes : option (list R)) : res (list (arr V3)) :=
  let n := List.length (rs_positions r) in
  match py_index n atom_index with
  | None => Err IndexError
  | Some k =>
      let d := if Reqb (vnorm cart_direction) 0 then Nan n
               else M_Symmetry.Fin (set_nth k (vscale (/ vnorm cart_direction) cart_direction) (repeat v0 n)) in
      get_displaced_positions r (Rows d) amplitudes
  end.

(** The arrays as the writers see them *)
Definition narr_of (a : arr V3) : narr :=
  match a with
  | M_Symmetry.Fin l => mkNarr [List.length l; 3%nat] (flat_map (fun v => [M_Text.Fin (vx v); M_Text.Fin (vy v); M_Text.Fin (vz v)]) l)
  | Nan n => mkNarr [n; 3%nat] (repeat NaN (n * 3))
  end.
Definition narr_lattice (m : M3) : narr := narr_of (M_Symmetry.Fin [r0 m; r1 m; r2 m]).

(** _displace.py:109-117 and 193-201: the loop of writes *)
Inductive write_loop (E : env) (r : refstruct) (fmt : string) (overwrite : bool)
  : fs -> list (arr V3 * path) -> outcome -> fs -> Prop :=
| loop_nil f : write_loop E r fmt overwrite f [] Done f
| loop_next f position p l f1 o f2 :
    generic_write_structure E f (narr_lattice (rs_lattice r)) (rs_numbers r) (narr_of position) p fmt overwrite Done f1 ->
    write_loop E r fmt overwrite f1 l o f2 -> write_loop E r fmt overwrite f ((position, p) :: l) o f2
| loop_stop f position p l o f1 : o <> Done ->
    generic_write_structure E f (narr_lattice (rs_lattice r)) (rs_numbers r) (narr_of position) p fmt overwrite o f1 ->
    write_loop E r fmt overwrite f ((position, p) :: l) o f1.

(** _displace.py:103-117 and 187-201, after the positions have been computed.
    io/_utils.py:47-59 [pathify_as_list]: an empty list of paths raises ValueError first. *)
Inductive write_all (E : env) (r : refstruct) (fmt : string) (overwrite : bool) (f : fs)
    (positions : res (list (arr V3))) (paths : list path) : outcome -> fs -> Prop :=
| all_empty : paths = [] -> write_all E r fmt overwrite f positions paths (Raised ValueError) f
| all_error e : paths <> [] -> positions = Err e -> write_all E r fmt overwrite f positions paths (Raised e) f
| all_length ps e : paths <> [] -> positions = Ok ps ->
    verify_list_len (List.length paths) (Some (List.length ps)) = Err e ->
    write_all E r fmt overwrite f positions paths (Raised e) f
| all_loop ps o f' : paths <> [] -> positions = Ok ps ->
    verify_list_len (List.length paths) (Some (List.length ps)) = Ok tt ->
    write_loop E r fmt overwrite f (combine ps paths) o f' -> write_all E r fmt overwrite f positions paths o f'.

(** _displace.py:78-117 [write_displaced_structures], 160-201 [write_ast_displaced_structures] *)
Definition write_displaced_structures E r cart_displacement amplitudes paths fmt overwrite f :=
  write_all E r fmt overwrite f (get_displaced_positions r cart_displacement amplitudes) paths.
Definition write_ast_displaced_structures E r atom_index cart_direction amplitudes paths fmt overwrite f :=
  write_all E r fmt overwrite f (get_ast_displaced_positions r atom_index cart_direction amplitudes) paths.
