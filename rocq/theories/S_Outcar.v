(** Specification vocabulary for OUTCAR files. *)
From Coq Require Import String Ascii ZArith NArith QArith Qreals Reals Bool Arith List Sorted.
From Verif Require Import Base LinAlg Constants M_Text M_Poscar M_Outcar S_Text.
Import ListNotations.
Local Open Scope nat_scope.

(** [needle] occurs in [hay] *)
Definition occurs (needle hay : text) : Prop := exists a b, hay = a ++ needle ++ b.

(** [f] are the lines of [s], in order and with their newlines; only the last may lack one *)
Definition lines_are (s : text) (f : file) : Prop :=
  concat f = s /\ Forall (fun l => l <> []) f /\
  (forall l a b, In l f -> l = a ++ NL :: b -> b = []) /\
  (forall g l l' h, f = g ++ l :: l' :: h -> exists a, l = a ++ [NL]).
(** The lines of an opened file with the given content *)
Definition file_lines (content : text) (f : file) : Prop := lines_are (universal content) f.

(** [l] is the first line of [f] containing [marker], and [rest] follows it *)
Definition first_with (marker : text) (f : file) (l : text) (rest : file) : Prop :=
  exists pre, f = pre ++ l :: rest /\ Forall (fun x => ~ occurs marker x) pre /\ occurs marker l.
Definition nowhere (marker : text) (f : file) : Prop := Forall (fun x => ~ occurs marker x) f.

(** The last but one word of [l], up to its first underscore, is the element symbol [w] *)
Definition element_of (l w : text) : Prop :=
  exists ws a b, split l = ws ++ [a; b] /\ ~ In 95%N w /\ (a = w \/ exists t, a = w ++ 95%N :: t) /\
    exists name z, In (name, z) atomic_numbers /\ w = txt name.

(** The POTCAR block: consecutive lines with POTCAR, the first of them the first line with
    the marker, one more line, and possibly a line with VRHFIN which says that the last POTCAR
    line was a repetition of the first *)
Definition potcar_block (f : file) (names : list text) (rest : file) : Prop :=
  exists l f1 more after all,
    first_with (txt "POTCAR:    ") f l f1 /\ Forall2 element_of (l :: more) all /\
    Forall (occurs (txt "POTCAR")) more /\
    ((f1 = more /\ after = []) \/ exists stop, f1 = more ++ stop :: after /\ ~ occurs (txt "POTCAR") stop) /\
    ((exists v, after = v :: rest /\ occurs (txt "VRHFIN") v /\ exists w, all = names ++ [w]) \/
     (~ (exists v r, after = v :: r /\ occurs (txt "VRHFIN") v) /\ rest = tl after /\ names = all)).

(** Element symbols, one per ion *)
Definition species (f : file) (symbols : list text) (rest : file) : Prop :=
  exists names f1 l counts,
    potcar_block f names f1 /\ first_with (txt "ions per type") f1 l rest /\
    Forall2 (fun w c => int_of w = Some c) (skipn 4 (split l)) counts /\
    symbols = concat (map (fun p => repeat (fst p) (Z.to_nat (snd p))) (combine names counts)).
Definition numbers_are (symbols : list text) (numbers : list Z) : Prop :=
  Forall2 (fun w z => exists name, In (name, z) atomic_numbers /\ w = txt name) symbols numbers.

(** [x] are the numbers that the first three words of [l] denote (fewer if [l] has fewer) *)
Definition row_of (E : env) (l : text) (x : list num) : Prop :=
  Forall2 (fun w y => float_of (e_fl E) w = Some y) (firstn 3 (split l)) x.
(** The first [n] lines of [f] denote the rows [rs]; a line past the end of the file is empty *)
Definition rows_are (E : env) (n : nat) (f : file) (rs : list (list num)) : Prop :=
  List.length rs = n /\ forall i x, nth_error rs i = Some x -> row_of E (nth i f []) x.
(** The array of rows of equal length [k] *)
Definition array_of (rs : list (list num)) (a : narr) : Prop :=
  (rs = [] /\ a = mkNarr [0] []) \/
  (rs <> [] /\ exists k, Forall (fun r => List.length r = k) rs /\ a = mkNarr [List.length rs; k] (concat rs)).
Definition table_at (E : env) (n : nat) (f : file) (a : narr) (rest : file) : Prop :=
  exists rs, rows_are E n f rs /\ array_of rs a /\ rest = skipn n f.

Definition fractional_block (E : env) (n : nat) (f : file) (a : narr) (rest : file) : Prop :=
  exists l f1, first_with (txt "position of ions in fractional coordinates (direct lattice)") f l f1 /\
    table_at E n f1 a rest.
Definition tensor_block (E : env) (f : file) (a : narr) (rest : file) : Prop :=
  exists l f1, first_with (txt "MACROSCOPIC STATIC DIELECTRIC TENSOR (including local field effects") f l f1 /\
    table_at E 3 (tl f1) a rest.
Definition lattice_block (E : env) (f : file) (a : narr) (rest : file) : Prop :=
  exists l0 f0 l f1, first_with (txt "Write flags") f l0 f0 /\
    first_with (txt "direct lattice vectors      ") f0 l f1 /\ table_at E 3 f1 a rest.

(** ** Phonons *)
(** [l] is the line of one mode: its wavenumber is word 7, or for an imaginary mode (marked
    f/i) minus word 6 (words are counted from 0) *)
Definition wavenumber_of (E : env) (l : text) (w : num) : Prop :=
  (occurs (txt "f/i") l /\ exists s x, nth_error (split l) 6 = Some s /\ float_of (e_fl E) s = Some x /\ w = num_opp x) \/
  (~ occurs (txt "f/i") l /\ exists s, nth_error (split l) 7 = Some s /\ float_of (e_fl E) s = Some w).
(** The words of [l] from the fourth on are the three components of [v] *)
Definition vector_of (E : env) (l : text) (v : V3) : Prop :=
  exists a b c, skipn 3 (split l) = [a; b; c] /\
    float_of (e_fl E) a = Some (Fin (vx v)) /\ float_of (e_fl E) b = Some (Fin (vy v)) /\
    float_of (e_fl E) c = Some (Fin (vz v)).
(** The rows of one eigenvector: lines with an X are skipped *)
Inductive vectors_in (E : env) : file -> list V3 -> Prop :=
| vectors_nil : vectors_in E [] []
| vectors_skip l f vs : occurs (txt "X") l -> vectors_in E f vs -> vs <> [] -> vectors_in E (l :: f) vs
| vectors_row l f v vs : ~ occurs (txt "X") l -> vector_of E l v -> vectors_in E f vs ->
    vectors_in E (l :: f) (v :: vs).
(** Successive modes of [n] atoms: a line with cm-1, the rows, one more line if the file does
    not end there *)
Inductive modes_in (E : env) (n : nat) : file -> list (num * list V3) -> Prop :=
| modes_nil f : modes_in E n f []
| modes_cons f l body f' w vs ms :
    first_with (txt "cm-1") f l (body ++ f') -> wavenumber_of E l w ->
    vectors_in E body vs -> List.length vs = n -> modes_in E n (tl f') ms ->
    modes_in E n f ((w, vs) :: ms).
(** The modes [ms], in the same way, and then [g] *)
Inductive modes_then (E : env) (n : nat) : file -> list (num * list V3) -> file -> Prop :=
| then_nil f : modes_then E n f [] f
| then_cons f l body f' g w vs ms :
    first_with (txt "cm-1") f l (body ++ f') -> wavenumber_of E l w ->
    vectors_in E body vs -> List.length vs = n -> modes_then E n (tl f') ms g ->
    modes_then E n f ((w, vs) :: ms) g.
(** Atomic masses *)
Definition masses_are (symbols : list text) (ms : list R) : Prop :=
  Forall2 (fun w m => exists name q, In (name, q) atomic_weights /\ w = txt name /\ m = Q2R q) symbols ms.
(** The displacements of a mode: Cartesian row [v] of an atom of mass [m] becomes
    v B / sqrt m, where B is the inverse lattice *)
Definition displacements_of (B : M3) (ms : list R) (vs : list V3) : list V3 :=
  map (fun p => vscale (/ sqrt (snd p)) (vmul (fst p) B)) (combine vs ms).
(** NumPy arrays of shape (N,3), (M,N,3) with finite entries *)
Definition array2 (vs : list V3) : narr := mkNarr [List.length vs; 3] (flat_map entries3 (map fin3 vs)).
Definition array3 (n : nat) (fs : list (list V3)) : narr :=
  mkNarr [List.length fs; n; 3] (flat_map entries3 (map fin3 (concat fs))).
Definition matrix (A : M3) : narr := array2 [r0 A; r1 A; r2 A].

(** ** Trajectories *)
(** What announces a position block *)
Definition block_marker : text := txt "POSITION                                       TOTAL-FORCE ".
(** A position block: whether it is machine-learned, and its Cartesian rows *)
Definition block : Type := bool * list V3.
Definition rows3_at (E : env) (f : file) (vs : list V3) : Prop :=
  Forall2 (fun l v => row_of E l (entries3 (fin3 v))) f vs.
(** The file consists of position blocks of [n] rows, in order: arbitrary lines, a line with
    the marker (machine-learned iff it contains (ML)), a separator line, the rows *)
Inductive blocks_in (E : env) (n : nat) : file -> list block -> Prop :=
| blocks_nil f : nowhere block_marker f -> blocks_in E n f []
| blocks_cons f l sep body f' ml vs bs :
    first_with block_marker f l (sep :: body ++ f') ->
    (ml = true <-> occurs (txt "(ML)") l) ->
    ~ occurs block_marker sep -> nowhere block_marker body ->
    rows3_at E body vs -> List.length vs = n -> blocks_in E n f' bs ->
    blocks_in E n f ((ml, vs) :: bs).
(** Block [i] counts as a step of the trajectory unless it is an ab initio block right after a
    machine-learned one *)
Definition counts_as_step (bs : list block) (i : nat) : Prop :=
  exists b, nth_error bs i = Some b /\
    (fst b = true \/ i = 0 \/ exists b', nth_error bs (i - 1) = Some b' /\ fst b' = false).
(** [l] lists the steps in file order *)
Definition steps_are (bs : list block) (l : list (list V3)) : Prop :=
  exists idx, Sorted.StronglySorted lt idx /\ (forall i, In i idx <-> counts_as_step bs i) /\
    Forall2 (fun i vs => exists ml, nth_error bs i = Some (ml, vs)) idx l.

(** ** Failures, time step *)
(** The words after the fourth of the ions-per-type line are not all integers *)
Definition bad_counts (f : file) : Prop :=
  exists names f1 l rest, potcar_block f names f1 /\ first_with (txt "ions per type") f1 l rest /\
    ~ exists counts, Forall2 (fun w c => int_of w = Some c) (skipn 4 (split l)) counts.
(** The [n] rows are readable but not of equal length *)
Definition ragged (E : env) (n : nat) (f : file) : Prop :=
  exists rs r r', rows_are E n f rs /\ In r rs /\ In r' rs /\ List.length r <> List.length r'.
(** The third word of [l] is the time step *)
Definition timestep_line (E : env) (l : text) (dt : num) : Prop :=
  exists w, nth_error (split l) 2 = Some w /\ float_of (e_fl E) w = Some dt.
