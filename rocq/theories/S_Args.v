(** Specification vocabulary for the checking of arguments: C98. *)
From Coq Require Import String ZArith NArith Reals Bool Arith List.
From Verif Require Import Base LinAlg M_Text M_Args.
Import ListNotations.
Local Open Scope nat_scope.

(** A value with a shape: a NumPy array or a PyTorch tensor *)
Definition shaped (v : pyval) (dims : list nat) : Prop :=
  exists data, v = VArray dims data \/ v = VTensor dims data.
Definition is_tensor (v : pyval) : Prop := exists dims data, v = VTensor dims data.

(** What is required of an argument: to be a list, or to have a shape whose given entries are
    matched (no dimension equals a method) *)
Inductive requirement := IsList | HasShape (spec : list sdim).
Definition dim_ok (d : nat) (s : sdim) : Prop :=
  match s with SAny => True | SDim n => d = n | SMethod => False end.
Definition meets (v : pyval) (r : requirement) : Prop :=
  match r with
  | IsList => exists l, v = VList l
  | HasShape spec => exists dims, shaped v dims /\ Forall2 dim_ok dims spec
  end.
Record argument := Arg { a_name : text; a_value : pyval; a_req : requirement }.
Definition met (a : argument) : Prop := meets (a_value a) (a_req a).

(** Shapes are written the way Python writes tuples, without spaces and with _ for what may be
    anything - but the empty one as ")" *)
Fixpoint commas (l : list text) : text :=
  match l with [] => [] | [x] => x | x :: rest => x ++ txt "," ++ commas rest end.
Definition dim_text (method_text : text) (s : sdim) : text :=
  match s with SAny => txt "_" | SDim n => str_int (Z.of_nat n) | SMethod => method_text end.
Definition tuple_text (left right method_text : text) (l : list sdim) : text :=
  match l with
  | [] => right
  | [x] => left ++ dim_text method_text x ++ txt "," ++ right
  | _ => left ++ commas (map (dim_text method_text) l) ++ right
  end.
Definition round_text := tuple_text (txt "(") (txt ")").
Definition square_text := tuple_text (txt "[") (txt "]").

(** The exception about an argument tells its name, what was expected and what was found *)
Definition about_type (name : text) (expected : text) (v : pyval) : text :=
  name ++ txt " should have type " ++ expected ++ txt ", not " ++ type_name v.
Definition about_shape (method_text name : text) (found : list nat) (expected : list sdim) : text :=
  name ++ txt " has wrong shape: " ++ round_text method_text (map SDim found) ++ txt " != " ++ round_text method_text expected.
Definition complaint (method_text : text) (a : argument) (e : exn) (message : text) : Prop :=
  match a_req a with
  | IsList => e = TypeError /\ message = about_type (a_name a) (txt "list") (a_value a)
  | HasShape spec =>
      ((forall dims, ~ shaped (a_value a) dims) /\ e = TypeError /\ message = about_type (a_name a) (txt "ndarray") (a_value a)) \/
      (exists dims, shaped (a_value a) dims /\ e = ValueError /\ message = about_shape method_text (a_name a) dims spec)
  end.

(** All arguments meet their requirements and nothing is raised; or the first that does not is
    complained about. *)
Inductive reported (method_text : text) : list argument -> outcome unit -> Prop :=
| all_met args : Forall met args -> reported method_text args (Done tt)
| first_unmet before a after e m : Forall met before -> ~ met a -> complaint method_text a e m ->
    reported method_text (before ++ a :: after) (Raise e m).

(** The length of a list, the first dimension of a shape, the number of entries *)
Definition list_length (v : pyval) : nat := match v with VList l => List.length l | _ => 0 end.
Definition first_dim (v : pyval) : nat := match v with VArray (n :: _) _ | VTensor (n :: _) _ => n | _ => 0 end.

(** The number given by a value: a number, the text of a number, or an array with one entry *)
Definition stands_for (fl : R -> num) (v : pyval) (x : num) : Prop :=
  (exists t, v = VNumber t x) \/ (exists s, v = VStr s /\ float_of fl s = Some x) \/
  (exists dims, v = VArray dims [x] \/ v = VTensor dims [x]).
(** Not known to be positive (nan is not) *)
Definition not_positive (x : num) : Prop := match x with Fin r => (r <= 0)%R | Inf neg => neg = true | NaN => False end.
(** Atomic numbers of elements: whole numbers from 1 to 118, of whatever type *)
Definition element (v : pyval) : Prop := exists t z, v = VNumber t (Fin (IZR z)) /\ (1 <= z <= 118)%Z.
(** Coordinates outside of the cell (nan is not) *)
Definition beyond (x : num) : Prop :=
  match x with Fin r => (r < 0 \/ 1 < r)%R | Inf _ => True | NaN => False end.
Definition entries (v : pyval) : list num := match v with VArray _ d | VTensor _ d => d | _ => [] end.

(** No blanks in names; no methods in requirements *)
Definition one_word (t : text) : Prop := ~ In 32%N t.
Definition plain (spec : list sdim) : Prop := ~ In SMethod spec.
(** An int or a bool *)
Definition whole (v : pyval) : Prop := exists x, v = VNumber (txt "int") x \/ v = VNumber (txt "bool") x.
(** The kind of exception without its text; requirements with None for what may be anything *)
Definition forget {A} (o : outcome A) : res unit := match o with Done _ => Ok tt | Raise e _ => Err e end.
Definition sdim_of (o : option nat) : sdim := match o with Some n => SDim n | None => SAny end.
