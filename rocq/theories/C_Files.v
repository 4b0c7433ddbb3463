(** Theorems about structure and trajectory files and the file system: C46, C48-C56. *)
From Coq Require Import String Ascii ZArith NArith Reals Bool Arith List Lia Lra.
From Verif Require Import Base LinAlg Constants M_Validate M_StructUtils M_Symmetry M_Reference M_Text M_Poscar M_Files M_Displace
  S_Lattice S_Vec S_Interp S_Text S_Files S_Displace P_Text P_Poscar P_Poscar2 P_Poscar3 P_Poscar4 P_Files P_Displace P_Displace2 P_Examples5 S_Cut P_Cut3.
Import ListNotations.

(** C46: writing a structure succeeds exactly for valid grouped structures, and reading the text
    written returns it, to sixteen decimals. *)
Theorem C46_write_succeeds_iff_valid : forall E lattice numbers positions label,
  (exists pieces, structure_pieces E lattice numbers positions label = Ok pieces) <->
  valid_structure lattice numbers positions /\ numbers <> [] /\ contiguous numbers.
Proof. exact f_C46_success. Qed.
Print Assumptions C46_write_succeeds_iff_valid.

Theorem C46_write_failures : forall E lattice numbers positions label e,
  structure_pieces E lattice numbers positions label = Err e ->
  e = ValueError \/ (e = IndexError /\ numbers = [] /\ valid_structure lattice numbers positions).
Proof. exact f_C46_failure. Qed.
Print Assumptions C46_write_failures.

Theorem C46_round_trip : forall E lattice numbers positions label pieces,
  e_fl E 1%R = Fin 1 -> narr_wf lattice -> narr_wf positions ->
  structure_pieces E lattice numbers positions label = Ok pieces ->
  exists lat pos,
    read_structure E (concat pieces) = Ok (lat, numbers, pos) /\
    List.length lat = 3%nat /\ Forall2 (reread (e_fl E)) (na_data lattice) (entries lat) /\
    List.length pos = List.length numbers /\ Forall2 (reread (e_fl E)) (na_data positions) (entries pos).
Proof. exact f_C46_roundtrip. Qed.
Print Assumptions C46_round_trip.

Example C46_nonvacuous :
  valid_structure exl exn exp /\ exn <> [] /\ contiguous exn /\ e_fl exE 1%R = Fin 1 /\ narr_wf exl /\ narr_wf exp /\
  exists pieces, structure_pieces exE exl exn exp (txt "label") = Ok pieces.
Proof. exact ex_C46. Qed.

(** C48: whatever the label, it takes one line and changes nothing else. *)
Theorem C48_structure_label : forall E lattice numbers positions label label' pieces,
  structure_pieces E lattice numbers positions label = Ok pieces ->
  exists pieces', structure_pieces E lattice numbers positions label' = Ok pieces' /\
    single_line (first_line (concat pieces)) /\ after_line (concat pieces) = after_line (concat pieces').
Proof. exact f_C48_structure. Qed.
Print Assumptions C48_structure_label.

Theorem C48_trajectory_label : forall E lattice numbers pts label label' pieces,
  trajectory_pieces E lattice numbers pts label = Ok pieces ->
  exists pieces', trajectory_pieces E lattice numbers pts label' = Ok pieces' /\
    single_line (first_line (concat pieces)) /\ after_line (concat pieces) = after_line (concat pieces').
Proof. exact f_C48_trajectory. Qed.
Print Assumptions C48_trajectory_label.

(** (the hypothesis holds of the structures of C46_nonvacuous and C52_nonvacuous) *)
(** C49: the symbol and count lines describe the list of atomic numbers, or the call raises. *)
Theorem C49_grouping : forall numbers,
  match get_symbols_str numbers with
  | Ok t => species_at t 0 numbers /\ after_lines 2 t = [] /\ contiguous numbers
  | Err IndexError => numbers = []
  | Err ValueError => ~ contiguous numbers
  | Err KeyError => ~ Forall known numbers
  | Err _ => False
  end.
Proof. exact f_C49_grouping. Qed.
Print Assumptions C49_grouping.

Theorem C49_succeeds_iff_contiguous : forall numbers,
  Forall known numbers -> numbers <> [] ->
  ((exists t, get_symbols_str numbers = Ok t) <-> contiguous numbers).
Proof. exact f_C49_iff. Qed.
Print Assumptions C49_succeeds_iff_contiguous.

Theorem C49_symbols_one_to_one :
  (forall n, known n <-> exists name, In (name, n) atomic_numbers) /\
  (forall a b n, In (a, n) atomic_numbers -> In (b, n) atomic_numbers -> a = b) /\
  (forall a m n, In (a, m) atomic_numbers -> In (a, n) atomic_numbers -> m = n) /\
  (forall a n, In (a, n) atomic_numbers <-> atom_symbol n = Ok a).
Proof. exact f_C49_table. Qed.
Print Assumptions C49_symbols_one_to_one.

Example C49_nonvacuous : Forall known exn /\ exn <> [] /\ contiguous exn /\ ~ contiguous [1; 8; 1]%Z.
Proof.
  split; [exact exn_known|]. split; [exact exn_ne|]. split; [exact exn_contiguous|].
  intros H. specialize (H 0%nat 1%nat 2%nat 1%Z ltac:(lia) eq_refl eq_refl). discriminate.
Qed.

(** C50: exactly which texts are read, what is returned, and what else can be raised. *)
Theorem C50_format : forall E content lat numbers p,
  read_structure E content = Ok (lat, numbers, p) <->
  header_of E (universal content) lat numbers /\
  exists rest, configuration E lat (List.length numbers) (after_lines 7 (universal content)) p rest.
Proof. exact f_C50_format. Qed.
Print Assumptions C50_format.

Theorem C50_positions_reader_agrees : forall E content,
  read_positions E content = rmap (fun r => snd r) (read_structure E content).
Proof. exact f_C50_positions. Qed.
Print Assumptions C50_positions_reader_agrees.

Theorem C50_one_row_per_atom : forall E content p,
  read_positions E content = Ok p ->
  exists lat numbers, header_of E (universal content) lat numbers /\ List.length p = List.length numbers.
Proof. exact f_C50_rows. Qed.
Print Assumptions C50_one_row_per_atom.

Theorem C50_failures : forall E content e,
  read_structure E content = Err e ->
  match e with
  | InvalidFileException _ => True
  | IndexError =>
      starts (line 7 (universal content)) 115 /\ after_lines 8 (universal content) = []
  | LinAlgError => exists lat numbers k, header_of E (universal content) lat numbers /\
      mode_line (after_lines 7 (universal content)) k /\ starts (line (7 + k) (universal content)) 99 /\
      forall m, finite33 lat = Some m -> mdet m = 0%R
  | ValueError => exists lat k, header_of E (universal content) lat [] /\
      mode_line (after_lines 7 (universal content)) k /\ starts (line (7 + k) (universal content)) 99
  | _ => False
  end.
Proof. exact f_C50_failure. Qed.
Print Assumptions C50_failures.

Example C50_nonvacuous :
  exists content lat pos, read_structure exE content = Ok (lat, exn, pos) /\ List.length pos = 3%nat.
Proof. exact ex_C50. Qed.

(** C51: scale factor and Cartesian coordinates. *)
Theorem C51_lattice_scaled : forall E content lat numbers p scale raw,
  read_structure E content = Ok (lat, numbers, p) ->
  float_of (e_fl E) (line 1 (universal content)) = Some scale ->
  rows_at E (universal content) 2 raw -> List.length raw = 3%nat ->
  Forall2 (scaled scale) raw lat.
Proof. exact f_C51_scaled. Qed.
Print Assumptions C51_lattice_scaled.

Theorem C51_scale_is_product : forall c v w, n3_scale c v = w <-> scaled c v w.
Proof. exact n3_scale_scaled. Qed.
Print Assumptions C51_scale_is_product.

Theorem C51_cartesian_converted : forall E content lat numbers p s A k i x,
  read_structure E content = Ok (lat, numbers, p) ->
  float_of (e_fl E) (line 1 (universal content)) = Some (Fin s) ->
  rows_at E (universal content) 2 (rows3 A) ->
  mode_line (after_lines 7 (universal content)) k -> starts (line (7 + k) (universal content)) 99 ->
  (i < List.length numbers)%nat -> row_at E (universal content) (8 + k + i) (fin3 x) ->
  exists y, nth_error p i = Some (fin3 y) /\ vmul y (mscale s A) = x.
Proof. exact f_C51_cartesian. Qed.
Print Assumptions C51_cartesian_converted.

Theorem C51_cartesian_scaled_refuted : forall E content lat numbers p s A k i x,
  read_structure E content = Ok (lat, numbers, p) ->
  float_of (e_fl E) (line 1 (universal content)) = Some (M_Text.Fin s) ->
  rows_at E (universal content) 2 (rows3 A) ->
  mode_line (after_lines 7 (universal content)) k -> starts (line (7 + k) (universal content)) 99 ->
  (i < List.length numbers)%nat -> row_at E (universal content) (8 + k + i) (fin3 x) ->
  s <> 1%R -> x <> v0 ->
  exists y, nth_error p i = Some (fin3 y) /\ vmul y (mscale s A) <> vscale s x.
Proof. exact f_C51_refuted. Qed.
Print Assumptions C51_cartesian_scaled_refuted.

Example C51_nonvacuous :
  exists lat numbers p,
  read_structure exE ex_cart_file = Ok (lat, numbers, p) /\
  float_of (e_fl exE) (line 1 (universal ex_cart_file)) = Some (M_Text.Fin 2) /\
  rows_at exE (universal ex_cart_file) 2 (rows3 mI) /\
  mode_line (after_lines 7 (universal ex_cart_file)) 0 /\ starts (line (7 + 0) (universal ex_cart_file)) 99 /\
  (1 < List.length numbers)%nat /\ row_at exE (universal ex_cart_file) (8 + 0 + 1) (fin3 (mkV 1 0 0)).
Proof. exact ex_C51. Qed.

(** C52: trajectory round trip. *)
Theorem C52_write_succeeds_iff_valid : forall E lattice numbers pts label,
  (exists pieces, trajectory_pieces E lattice numbers pts label = Ok pieces) <->
  valid_trajectory lattice numbers pts /\ numbers <> [] /\ contiguous numbers.
Proof. exact f_C52_success. Qed.
Print Assumptions C52_write_succeeds_iff_valid.

Theorem C52_write_failures : forall E lattice numbers pts label e,
  trajectory_pieces E lattice numbers pts label = Err e ->
  e = ValueError \/ (e = IndexError /\ numbers = [] /\ valid_trajectory lattice numbers pts).
Proof. exact f_C52_failure. Qed.
Print Assumptions C52_write_failures.

Theorem C52_round_trip : forall E lattice numbers pts label pieces,
  e_fl E 1%R = Fin 1 -> narr_wf lattice -> narr_wf pts ->
  trajectory_pieces E lattice numbers pts label = Ok pieces ->
  exists ps,
    read_positions_ts E (concat pieces) = Ok ps /\
    na_shape pts = [List.length ps; List.length numbers; 3]%nat /\
    Forall (fun p => List.length p = List.length numbers) ps /\
    Forall2 (reread (e_fl E)) (na_data pts) (flat_map entries ps).
Proof. exact f_C52_roundtrip. Qed.
Print Assumptions C52_round_trip.

Example C52_nonvacuous :
  valid_trajectory exl exn ext /\ exn <> [] /\ contiguous exn /\ narr_wf exl /\ narr_wf ext /\
  exists pieces, trajectory_pieces exE exl exn ext (txt "label") = Ok pieces.
Proof. exact ex_C52. Qed.

(** C53: which configurations are returned, and what else can be raised. *)
Theorem C53_format : forall E content ps,
  read_positions_ts E content = Ok ps <->
  exists lat numbers rest,
    header_of E (universal content) lat numbers /\
    configurations E lat (List.length numbers) (after_lines 7 (universal content)) ps rest /\
    (no_label rest \/ exists l, malformed E (List.length numbers) rest l /\ contains stop_message l = true).
Proof. exact f_C53_format. Qed.
Print Assumptions C53_format.

Theorem C53_failures : forall E content e,
  read_positions_ts E content = Err e ->
  (exists m, e = InvalidFileException m) \/
  exists lat numbers ps s k,
    header_of E (universal content) lat numbers /\
    configurations E lat (List.length numbers) (after_lines 7 (universal content)) ps s /\ mode_line s k /\
    ((e = IndexError /\ k = 1%nat /\ after_lines 1 s = []) \/
     (starts (line k s) 99 /\ e = LinAlgError /\ forall m, finite33 lat = Some m -> mdet m = 0%R) \/
     (starts (line k s) 99 /\ e = ValueError /\ numbers = [])).
Proof. exact f_C53_failure. Qed.
Print Assumptions C53_failures.

Example C53_nonvacuous :
  exists content ps, read_positions_ts exE content = Ok ps /\ List.length ps = 2%nat.
Proof. exact ex_C53. Qed.

(** C54: file-system effects of the writers, at every interruption point and over every history. *)
Theorem C54_invalid_structure_touches_nothing : forall E f lattice numbers positions p overwrite label o g,
  ~ (valid_structure lattice numbers positions /\ numbers <> [] /\ contiguous numbers) ->
    write_structure E f lattice numbers positions p overwrite label o g -> (exists e, o = Raised e /\ (e = ValueError \/ e = IndexError)) /\ same_fs f g.
Proof. exact f_C54_invalid. Qed.
Print Assumptions C54_invalid_structure_touches_nothing.

Theorem C54_invalid_trajectory_touches_nothing : forall E f lattice numbers positions p overwrite label o g,
  ~ (valid_trajectory lattice numbers positions /\ numbers <> [] /\ contiguous numbers) ->
    write_trajectory E f lattice numbers positions p overwrite label o g -> (exists e, o = Raised e /\ (e = ValueError \/ e = IndexError)) /\ same_fs f g.
Proof. exact f_C54_invalid_ts. Qed.
Print Assumptions C54_invalid_trajectory_touches_nothing.

Theorem C54_valid_structure : forall E lattice numbers positions label,
  valid_structure lattice numbers positions -> numbers <> [] -> contiguous numbers ->
  exists whole,
    (e_fl E 1%R = Fin 1 -> narr_wf lattice -> narr_wf positions ->
     exists lat pos, read_structure E whole = Ok (lat, numbers, pos) /\
       Forall2 (reread (e_fl E)) (na_data lattice) (entries lat) /\
       Forall2 (reread (e_fl E)) (na_data positions) (entries pos)) /\
    forall f p overwrite,
      (forall o g, write_structure E f lattice numbers positions p overwrite label o g -> wrote p whole f o g) /\
      (writable f overwrite p ->
        (exists g, write_structure E f lattice numbers positions p overwrite label Done g) /\
        forall c, prefix_of c whole ->
          exists g, write_structure E f lattice numbers positions p overwrite label Interrupted g /\ g p = Present c) /\
      (forall c o g, f p = Present c -> overwrite = false ->
         write_structure E f lattice numbers positions p overwrite label o g -> o = Raised FileExistsError /\ same_fs f g) /\
      (forall e o g, f p = Blocked e ->
         write_structure E f lattice numbers positions p overwrite label o g -> o = Raised e /\ same_fs f g).
Proof. exact f_C54_valid. Qed.
Print Assumptions C54_valid_structure.

Theorem C54_valid_trajectory : forall E lattice numbers positions label,
  valid_trajectory lattice numbers positions -> numbers <> [] -> contiguous numbers ->
  exists whole,
    (e_fl E 1%R = Fin 1 -> narr_wf lattice -> narr_wf positions ->
     exists ps, read_positions_ts E whole = Ok ps /\
       na_shape positions = [List.length ps; List.length numbers; 3]%nat /\
       Forall2 (reread (e_fl E)) (na_data positions) (flat_map entries ps)) /\
    forall f p overwrite,
      (forall o g, write_trajectory E f lattice numbers positions p overwrite label o g -> wrote p whole f o g) /\
      (writable f overwrite p ->
        (exists g, write_trajectory E f lattice numbers positions p overwrite label Done g) /\
        forall c, prefix_of c whole ->
          exists g, write_trajectory E f lattice numbers positions p overwrite label Interrupted g /\ g p = Present c) /\
      (forall c o g, f p = Present c -> overwrite = false ->
         write_trajectory E f lattice numbers positions p overwrite label o g -> o = Raised FileExistsError /\ same_fs f g) /\
      (forall e o g, f p = Blocked e ->
         write_trajectory E f lattice numbers positions p overwrite label o g -> o = Raised e /\ same_fs f g).
Proof. exact f_C54_valid_ts. Qed.
Print Assumptions C54_valid_trajectory.

Theorem C54_history_without_overwrite_preserves : forall E f h g,
  history E f h g -> forall p c,
  (forall k o, In (k, o) h -> call_path k = p -> call_overwrite k = false) ->
  f p = Present c -> g p = Present c.
Proof. exact f_C54_history. Qed.
Print Assumptions C54_history_without_overwrite_preserves.

Theorem C54_history_of_failures_preserves : forall E f h g,
  history E f h g -> forall p,
  (forall k o, In (k, o) h -> call_path k = p -> exists e, o = Raised e) -> g p = f p.
Proof. exact f_C54_untouched. Qed.
Print Assumptions C54_history_of_failures_preserves.

Theorem C54_generic_structure : forall E f l n x p fmt ow o g,
  (fmt = "poscar"%string \/ fmt = "xdatcar"%string ->
   (generic_write_structure E f l n x p fmt ow o g <-> write_structure E f l n x p ow structure_label o g)) /\
  (fmt <> "poscar"%string -> fmt <> "xdatcar"%string ->
   generic_write_structure E f l n x p fmt ow o g -> o = Raised ValueError /\ g = f).
Proof. exact f_C54_generic. Qed.
Print Assumptions C54_generic_structure.

Theorem C54_generic_trajectory : forall E f l n x p fmt ow o g,
  (fmt = "xdatcar"%string ->
   (generic_write_trajectory E f l n x p fmt ow o g <-> write_trajectory E f l n x p ow trajectory_label o g)) /\
  (fmt <> "xdatcar"%string ->
   generic_write_trajectory E f l n x p fmt ow o g -> o = Raised ValueError /\ g = f).
Proof. exact f_C54_generic_ts. Qed.
Print Assumptions C54_generic_trajectory.

Example C54_nonvacuous :
  exists g, history exE exfs
  [(CallStructure exl exn exp (txt "b") false (txt "x"), Raised FileExistsError);
   (CallTrajectory exl exn ext (txt "d/x") true (txt "x"), Raised FileNotFoundError);
   (CallStructure exl exn exp (txt "a") false (txt "x"), Interrupted);
   (CallGenericStructure exl exn exp (txt "a") "poscar" true, Done)] g /\
  g (txt "b") = Present (txt "old").
Proof. exact ex_C54. Qed.

(** C54: reading what an interrupted write leaves.  The reader refuses the file, or returns what was
    to be written, except perhaps its very last number, of which final digits may be missing. *)
Theorem C54_reading_interrupted_structure : forall E f lattice numbers positions p overwrite label g c,
  e_fl E 1%R = Fin 1 -> narr_wf lattice -> narr_wf positions ->
  write_structure E f lattice numbers positions p overwrite label Interrupted g -> g p = Present c ->
  (exists m, read_structure E c = Err (InvalidFileException m)) \/
  exists lat pos,
    read_structure E c = Ok (lat, numbers, pos) /\
    List.length lat = 3%nat /\ Forall2 (reread (e_fl E)) (na_data lattice) (entries lat) /\ List.length pos = List.length numbers /\
    (Forall2 (reread (e_fl E)) (na_data positions) (entries pos) \/
     (~ at_line_end c /\ reread_but_last (e_fl E) (na_data positions) (entries pos))).
Proof. exact f_interrupted_structure. Qed.
Print Assumptions C54_reading_interrupted_structure.

Theorem C54_reading_interrupted_trajectory : forall E f lattice numbers positions p overwrite label g c s,
  e_fl E 1%R = Fin 1 -> narr_wf lattice -> narr_wf positions -> na_shape positions = [s; List.length numbers; 3]%nat ->
  write_trajectory E f lattice numbers positions p overwrite label Interrupted g -> g p = Present c ->
  (exists m, read_positions_ts E c = Err (InvalidFileException m)) \/
  exists ps,
    read_positions_ts E c = Ok ps /\ (List.length ps <= s)%nat /\ Forall (fun q => List.length q = List.length numbers) ps /\
    let written := firstn (List.length ps * (List.length numbers * 3)) (na_data positions) in
    (Forall2 (reread (e_fl E)) written (flat_map entries ps) \/
     (~ at_line_end c /\ reread_but_last (e_fl E) written (flat_map entries ps))).
Proof. exact f_interrupted_trajectory. Qed.
Print Assumptions C54_reading_interrupted_trajectory.

(** The reader does not tell that a trajectory was interrupted between two configurations: any number
    of leading configurations can be what is read. *)
Theorem C54_interrupted_trajectory_reads_shorter : forall E f lattice numbers positions p overwrite label s k,
  e_fl E 1%R = Fin 1 -> narr_wf lattice -> narr_wf positions -> na_shape positions = [s; List.length numbers; 3]%nat ->
  valid_trajectory lattice numbers positions -> numbers <> [] -> contiguous numbers -> writable f overwrite p -> (k <= s)%nat ->
  exists g c ps, write_trajectory E f lattice numbers positions p overwrite label Interrupted g /\ g p = Present c /\
    read_positions_ts E c = Ok ps /\ List.length ps = k /\
    Forall2 (reread (e_fl E)) (firstn (k * (List.length numbers * 3)) (na_data positions)) (flat_map entries ps).
Proof. exact f_interrupted_between. Qed.
Print Assumptions C54_interrupted_trajectory_reads_shorter.

(** "An interrupted structure file is refused or holds what was to be written" is false: the last
    coordinate of any structure, if at most 1/2, can be read as 0 without complaint. *)
Theorem C54_interruption_detected_refuted : forall E f lattice numbers positions p overwrite label l r,
  e_fl E 1%R = Fin 1 -> narr_wf lattice -> narr_wf positions ->
  valid_structure lattice numbers positions -> numbers <> [] -> contiguous numbers -> writable f overwrite p ->
  na_data positions = (l ++ [Fin r])%list -> (r <= 1 / 2)%R ->
  exists g c lat pos m, write_structure E f lattice numbers positions p overwrite label Interrupted g /\ g p = Present c /\
    read_structure E c = Ok (lat, numbers, pos) /\
    Forall2 (reread (e_fl E)) (na_data lattice) (entries lat) /\
    entries pos = (m ++ [e_fl E 0%R])%list /\ Forall2 (reread (e_fl E)) l m.
Proof. exact f_interrupted_undetected. Qed.
Print Assumptions C54_interruption_detected_refuted.

Example C54_interrupted_nonvacuous :
  e_fl exE 1%R = Fin 1 /\ narr_wf exl /\ narr_wf exp /\ narr_wf ext /\ na_shape ext = [2; List.length exn; 3]%nat /\
  valid_structure exl exn exp /\ valid_trajectory exl exn ext /\ exn <> [] /\ contiguous exn /\
  writable (fun _ => Absent) false (txt "a") /\
  exists l, na_data exp = (l ++ [Fin (/ 4)])%list /\ reread (e_fl exE) (Fin (/ 4)) (Fin (/ 4)) /\ e_fl exE 0%R <> Fin (/ 4).
Proof. exact ex_interrupted. Qed.

Local Open Scope R_scope.

(** C55: displaced structures and the files written from them. *)
Theorem C55_displaced_positions : forall r d amps,
  mdet (rs_lattice r) <> 0 -> List.length d = List.length (rs_positions r) -> (exists v, In v d /\ v <> v0) ->
  exists qs, get_displaced_positions r (Rows (AFin d)) (Some amps) = Ok (map AFin qs) /\
    Forall2 (fun a q => moved (rs_lattice r) (rs_positions r) (rows_scale a (direction_of d)) q) amps qs.
Proof. exact f_C55_positions. Qed.
Print Assumptions C55_displaced_positions.

Theorem C55_magnitude_ignored : forall r d c amps,
  0 < c ->
  get_displaced_positions r (Rows (AFin (rows_scale c d))) amps = get_displaced_positions r (Rows (AFin d)) amps.
Proof. exact f_C55_scale. Qed.
Print Assumptions C55_magnitude_ignored.

Theorem C55_single_atom : forall r i k v amps,
  mdet (rs_lattice r) <> 0 -> v <> v0 -> (k < List.length (rs_positions r))%nat ->
  (i = Z.of_nat k \/ i = (Z.of_nat k - Z.of_nat (List.length (rs_positions r)))%Z) ->
  exists qs, get_ast_displaced_positions r i v (Some amps) = Ok (map AFin qs) /\
    Forall2 (fun a q => moved_atom (rs_lattice r) (rs_positions r) k (vscale (a / vnorm v) v) q) amps qs.
Proof. exact f_C55_ast. Qed.
Print Assumptions C55_single_atom.

Theorem C55_written_in_order : forall E r d amps fmt paths,
  mdet (rs_lattice r) <> 0 -> List.length d = List.length (rs_positions r) -> (exists v, In v d /\ v <> v0) ->
  List.length (rs_numbers r) = List.length (rs_positions r) ->
  Forall known (rs_numbers r) -> contiguous (rs_numbers r) -> e_fl E 1 = M_Text.Fin 1 ->
  (fmt = "poscar"%string \/ fmt = "xdatcar"%string) ->
  List.length paths = List.length amps -> (0 < List.length amps <= 256)%nat -> NoDup paths ->
  exists qs ts,
    Forall2 (fun a q => moved (rs_lattice r) (rs_positions r) (rows_scale a (direction_of d)) q) amps qs /\
    Forall2 (fun q t => file_holds E t (rs_lattice r) (rs_numbers r) (coords q)) qs ts /\
    forall f overwrite,
      (forall o g, write_displaced_structures E r (Rows (AFin d)) (Some amps) paths fmt overwrite f o g ->
         wrote_in_order overwrite (combine paths ts) f o g) /\
      ((forall p, In p paths -> writable f overwrite p) ->
         exists g, write_displaced_structures E r (Rows (AFin d)) (Some amps) paths fmt overwrite f Done g).
Proof. exact f_C55_write. Qed.
Print Assumptions C55_written_in_order.

Theorem C55_single_atom_written_in_order : forall E r i k v amps fmt paths,
  mdet (rs_lattice r) <> 0 -> v <> v0 -> (k < List.length (rs_positions r))%nat ->
  (i = Z.of_nat k \/ i = (Z.of_nat k - Z.of_nat (List.length (rs_positions r)))%Z) ->
  List.length (rs_numbers r) = List.length (rs_positions r) ->
  Forall known (rs_numbers r) -> contiguous (rs_numbers r) -> e_fl E 1 = M_Text.Fin 1 ->
  (fmt = "poscar"%string \/ fmt = "xdatcar"%string) ->
  List.length paths = List.length amps -> (0 < List.length amps <= 256)%nat -> NoDup paths ->
  exists qs ts,
    Forall2 (fun a q => moved_atom (rs_lattice r) (rs_positions r) k (vscale (a / vnorm v) v) q) amps qs /\
    Forall2 (fun q t => file_holds E t (rs_lattice r) (rs_numbers r) (coords q)) qs ts /\
    forall f overwrite,
      (forall o g, write_ast_displaced_structures E r i v (Some amps) paths fmt overwrite f o g ->
         wrote_in_order overwrite (combine paths ts) f o g) /\
      ((forall p, In p paths -> writable f overwrite p) ->
         exists g, write_ast_displaced_structures E r i v (Some amps) paths fmt overwrite f Done g).
Proof. exact f_C55_write_ast. Qed.
Print Assumptions C55_single_atom_written_in_order.

Theorem C55_bad_index : forall r i v amps,
  (i < - Z.of_nat (List.length (rs_positions r)) \/ Z.of_nat (List.length (rs_positions r)) <= i)%Z ->
  get_ast_displaced_positions r i v amps = Err IndexError.
Proof. exact f_C55_index. Qed.
Print Assumptions C55_bad_index.

Theorem C55_bad_shape : forall r amps,
  amps <> [] -> get_displaced_positions r OtherShape (Some amps) = Err ValueError.
Proof. exact f_C55_shape. Qed.
Print Assumptions C55_bad_shape.

Theorem C55_bad_amplitudes : forall r d,
  get_displaced_positions r d None = Err ValueError.
Proof. exact f_C55_amplitudes. Qed.
Print Assumptions C55_bad_amplitudes.

Theorem C55_bad_rows : forall r d amps,
  amps <> [] ->
  List.length d <> List.length (rs_positions r) -> List.length d <> 1%nat -> List.length (rs_positions r) <> 1%nat ->
  get_displaced_positions r (Rows (AFin d)) (Some amps) = Err ValueError.
Proof. exact f_C55_rows. Qed.
Print Assumptions C55_bad_rows.

Theorem C55_counts_differ : forall E r d amps paths fmt ow f o g,
  (List.length paths <> List.length amps \/ 256 < List.length paths)%nat ->
  write_displaced_structures E r d (Some amps) paths fmt ow f o g ->
  (exists e, o = Raised e /\ (get_displaced_positions r d (Some amps) = Err e \/ e = ValueError)) /\ g = f.
Proof. exact f_C55_count. Qed.
Print Assumptions C55_counts_differ.

Theorem C55_more_than_256_files_refuted : forall E r d amps paths fmt ow f o g,
  mdet (rs_lattice r) <> 0 -> List.length d = List.length (rs_positions r) -> (exists v, In v d /\ v <> v0) ->
  List.length paths = List.length amps -> (256 < List.length amps)%nat ->
  write_displaced_structures E r (Rows (AFin d)) (Some amps) paths fmt ow f o g ->
  o = Raised ValueError /\ g = f.
Proof. exact f_C55_more_than_256. Qed.
Print Assumptions C55_more_than_256_files_refuted.

Theorem C55_unsupported_format : forall E r d amps paths fmt ow f o g,
  fmt <> "poscar"%string -> fmt <> "xdatcar"%string -> amps <> Some [] ->
  write_displaced_structures E r d amps paths fmt ow f o g -> (exists e, o = Raised e) /\ g = f.
Proof. exact f_C55_format. Qed.
Print Assumptions C55_unsupported_format.

Example C55_nonvacuous :
  mdet (rs_lattice exr) <> 0%R /\ List.length exd = List.length (rs_positions exr) /\ (exists v, In v exd /\ v <> v0) /\
  List.length (rs_numbers exr) = List.length (rs_positions exr) /\ Forall known (rs_numbers exr) /\ contiguous (rs_numbers exr) /\
  e_fl exE 1%R = M_Text.Fin 1 /\ List.length exq = List.length [1; -1]%R /\ NoDup exq.
Proof. exact ex_C55. Qed.

Example C55_stops_at_first_failure :
  exists o g,
  write_displaced_structures exE exr (Rows (M_Symmetry.Fin exd)) (Some [1; -1]%R) exq "poscar" false exfs o g /\
  o = Raised FileExistsError /\ g (txt "b") = Present (txt "old") /\ exists t, g (txt "a") = Present t.
Proof. exact ex_C55_partial_run. Qed.

Example C55_256_nonvacuous :
  exists amps : list R, exists paths : list path,
  List.length paths = List.length amps /\ (256 < List.length amps)%nat /\
  exists o g, write_displaced_structures exE exr (Rows (M_Symmetry.Fin exd)) (Some amps) paths "poscar" true exfs o g.
Proof. exact ex_C55_256. Qed.

(** C56: a zero direction gives NaN positions that are written without complaint. *)
Theorem C56_nan_positions : forall r d amps,
  mdet (rs_lattice r) <> 0 -> List.length d = List.length (rs_positions r) -> d <> [] ->
  Forall (fun v => v = v0) d ->
  get_displaced_positions r (Rows (AFin d)) (Some amps) = Ok (map (fun _ => Nan (List.length (rs_positions r))) amps).
Proof. exact f_C56. Qed.
Print Assumptions C56_nan_positions.

Theorem C56_nan_positions_single_atom : forall r i amps,
  mdet (rs_lattice r) <> 0 ->
  (- Z.of_nat (List.length (rs_positions r)) <= i < Z.of_nat (List.length (rs_positions r)))%Z ->
  get_ast_displaced_positions r i v0 (Some amps) = Ok (map (fun _ => Nan (List.length (rs_positions r))) amps).
Proof. exact f_C56_ast. Qed.
Print Assumptions C56_nan_positions_single_atom.

Theorem C56_written : forall E r d amps fmt paths,
  mdet (rs_lattice r) <> 0 -> List.length d = List.length (rs_positions r) -> d <> [] -> Forall (fun v => v = v0) d ->
  List.length (rs_numbers r) = List.length (rs_positions r) ->
  Forall known (rs_numbers r) -> contiguous (rs_numbers r) -> e_fl E 1 = M_Text.Fin 1 ->
  (fmt = "poscar"%string \/ fmt = "xdatcar"%string) ->
  List.length paths = List.length amps -> (0 < List.length amps <= 256)%nat -> NoDup paths ->
  exists ts,
    Forall (fun t => file_holds E t (rs_lattice r) (rs_numbers r) (repeat NaN (List.length d * 3))) ts /\
    List.length ts = List.length paths /\
    forall f overwrite,
      (forall o g, write_displaced_structures E r (Rows (AFin d)) (Some amps) paths fmt overwrite f o g ->
         wrote_in_order overwrite (combine paths ts) f o g) /\
      ((forall p, In p paths -> writable f overwrite p) ->
         exists g, write_displaced_structures E r (Rows (AFin d)) (Some amps) paths fmt overwrite f Done g).
Proof. exact f_C56_write. Qed.
Print Assumptions C56_written.

Example C56_nonvacuous :
  mdet (rs_lattice exr) <> 0%R /\ List.length [v0; v0; v0] = List.length (rs_positions exr) /\
  [v0; v0; v0] <> [] /\ Forall (fun v => v = v0) [v0; v0; v0].
Proof. exact ex_C56. Qed.
