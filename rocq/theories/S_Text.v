(** Specification vocabulary for structure and trajectory files. *)
From Coq Require Import String Ascii ZArith NArith Reals Bool Arith List.
From Verif Require Import Base LinAlg Constants M_Text M_Poscar S_Spectrum.
Import ListNotations.
Local Open Scope N_scope.

(** The part of a text before its first newline, and after it *)
Fixpoint first_line (s : text) : text :=
  match s with
  | [] => []
  | c :: s' => if c =? 10 then [] else c :: first_line s'
  end.
Fixpoint after_line (s : text) : text :=
  match s with
  | [] => []
  | c :: s' => if c =? 10 then s' else after_line s'
  end.
(** What follows the first [k] lines, and line number [k] (counting from 0; empty when
    there are fewer lines) *)
Fixpoint after_lines (k : nat) (s : text) : text :=
  match k with
  | O => s
  | S k' => after_lines k' (after_line s)
  end.
Definition line (k : nat) (s : text) : text := first_line (after_lines k s).

(** A text that occupies one line: no newline and no carriage return *)
Definition single_line (s : text) : Prop := ~ In 10 s /\ ~ In 13 s.

(** [v] is [r] rounded to the nearest multiple of 10^-16, ties to even *)
Definition rounded16 (r v : R) : Prop :=
  exists n : Z, nearest_even (r * 10 ^ 16)%R n /\ v = (IZR n / 10 ^ 16)%R.

(** What a float becomes by writing it with 16 decimals and reading it back with [fl]
    as the decimal-to-float conversion *)
Inductive reread (fl : R -> num) : num -> num -> Prop :=
| reread_fin r v : rounded16 r v -> reread fl (Fin r) (fl v)
| reread_inf b : reread fl (Inf b) (Inf b)
| reread_nan : reread fl NaN NaN.

(** Entries of rows *)
Definition entries (l : list n3) : list num := flat_map (fun v => [nx v; ny v; nz v]) l.

(** Equal elements are contiguous *)
Definition contiguous (l : list Z) : Prop :=
  forall i j k x, (i < j < k)%nat -> nth_error l i = Some x -> nth_error l k = Some x -> nth_error l j = Some x.

(** Known atomic numbers (H..Og) *)
Definition known (n : Z) : Prop := (1 <= n <= 118)%Z.

(** In [0,1], or NaN *)
Definition in_cell (x : num) : Prop :=
  match x with Fin r => (0 <= r <= 1)%R | Inf _ => False | NaN => True end.

(** What the writers accept *)
Definition valid_structure (lattice : narr) (numbers : list Z) (positions : narr) : Prop :=
  na_shape lattice = [3; 3]%nat /\ Forall known numbers /\
  na_shape positions = [List.length numbers; 3]%nat /\ Forall in_cell (na_data positions).
Definition valid_trajectory (lattice : narr) (numbers : list Z) (positions_ts : narr) : Prop :=
  na_shape lattice = [3; 3]%nat /\ Forall known numbers /\
  (exists s, na_shape positions_ts = [s; List.length numbers; 3]%nat) /\ Forall in_cell (na_data positions_ts).

(** ** The structure-file format, line by line *)
(** [l] starts with the letter [c] in either case *)
Definition starts (l : text) (c : N) : Prop := exists d t, l = d :: t /\ lower d = c.

(** Line [k] starts with three numbers, the components of [v] *)
Definition row_at (E : env) (s : text) (k : nat) (v : n3) : Prop :=
  exists wa wb wc ws, split (line k s) = wa :: wb :: wc :: ws /\
    float_of (e_fl E) wa = Some (nx v) /\ float_of (e_fl E) wb = Some (ny v) /\ float_of (e_fl E) wc = Some (nz v).
Definition rows_at (E : env) (s : text) (k : nat) (l : list n3) : Prop :=
  forall i v, nth_error l i = Some v -> row_at E s (k + i) v.

(** Lines [k] and [k+1] list element symbols and ion counts; [numbers] is their expansion.
    A negative count stands for no ions. *)
Definition species_at (s : text) (k : nat) (numbers : list Z) : Prop :=
  exists elements counts,
    elements <> [] /\ List.length counts = List.length elements /\
    Forall2 (fun w z => exists name, In (name, z) atomic_numbers /\ w = txt name) (split (line k s)) elements /\
    Forall2 (fun w c => int_of w = Some c) (split (line (S k) s)) counts /\
    numbers = concat (map (fun p => repeat (fst p) (Z.to_nat (snd p))) (combine elements counts)).

(** The product of two floating-point numbers without rounding: infinity times zero is NaN, the
    sign of an infinite product is negative when exactly one factor is negative *)
Definition negative (x : num) : Prop := match x with Fin r => (r < 0)%R | Inf neg => neg = true | NaN => False end.
Inductive product : num -> num -> num -> Prop :=
| product_finite a b : product (Fin a) (Fin b) (Fin (a * b))
| product_nan x y : x = NaN \/ y = NaN -> product x y NaN
| product_zero x y b : (x = Fin 0 /\ y = Inf b) \/ (x = Inf b /\ y = Fin 0) -> product x y NaN
| product_infinite x y b neg : x <> NaN -> y <> NaN -> x <> Fin 0 -> y <> Fin 0 -> x = Inf b \/ y = Inf b ->
    (neg = true <-> (negative x /\ ~ negative y) \/ (~ negative x /\ negative y)) -> product x y (Inf neg).
Definition scaled (c : num) (v w : n3) : Prop := product (nx v) c (nx w) /\ product (ny v) c (ny w) /\ product (nz v) c (nz w).

(** Lines 0-6: comment, scale factor, three lattice vectors, species *)
Definition header_of (E : env) (u : text) (lattice : list n3) (numbers : list Z) : Prop :=
  exists scale raw,
    float_of (e_fl E) (line 1 u) = Some scale /\ List.length raw = 3%nat /\ rows_at E u 2 raw /\
    lattice = map (n3_scale scale) raw /\ species_at u 5 numbers.

(** One configuration of [n] atoms at the beginning of [s]: an optional selective-dynamics
    line, the coordinate mode, and [n] rows; [s'] is what follows *)
Definition mode_line (s : text) (k : nat) : Prop :=
  (k = 0%nat /\ ~ starts (line 0 s) 115) \/ (k = 1%nat /\ starts (line 0 s) 115).
Definition configuration (E : env) (lattice : list n3) (n : nat) (s : text) (p : list n3) (s' : text) : Prop :=
  exists k rows,
    mode_line s k /\ List.length rows = n /\ rows_at E s (S k) rows /\ s' = after_lines (S k + n) s /\
    ((starts (line k s) 100 /\ p = rows) \/
     (starts (line k s) 99 /\ rows <> [] /\ exists inv, np_inv E lattice = Ok inv /\ p = map (fun v => row_mul v inv) rows)).

(** Successive configurations *)
Inductive configurations (E : env) (lattice : list n3) (n : nat) : text -> list (list n3) -> text -> Prop :=
| configs_nil s : configurations E lattice n s [] s
| configs_cons s p s1 ps s2 : configuration E lattice n s p s1 -> configurations E lattice n s1 ps s2 ->
    configurations E lattice n s (p :: ps) s2.

(** Where trajectory reading stops: at the end of the file or at a line that is blank or
    starts with white space.  It also stops (a quirk of recognising the error by its message)
    at a malformed line that happens to contain the text of that message. *)
Definition no_label (s : text) : Prop := s = [] \/ exists c t, s = c :: t /\ is_space c = true.
Definition malformed (E : env) (n : nat) (s : text) (l : text) : Prop :=
  exists k, mode_line s k /\ ~ no_label s /\
    ((l = line k s /\ ~ starts l 99 /\ ~ starts l 100 /\ after_lines k s <> []) \/
     ((starts (line k s) 99 \/ starts (line k s) 100) /\
      exists j rows, (j < n)%nat /\ List.length rows = j /\ rows_at E s (S k) rows /\
        l = line (S k + j) s /\ ~ exists v, row_at E s (S k + j) v)).
