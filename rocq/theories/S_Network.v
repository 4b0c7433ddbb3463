(** The equations of the network, in the form of (5) and (6) of doi:10.1038/s41524-021-00543-3
    with layer normalisation: a vector per atom and a vector per edge. *)
From Coq Require Import ZArith Reals Bool Arith List.
From Verif Require Import Base LinAlg M_Torch M_Gnn S_Dataset S_Lattice S_Edge.
Import ListNotations.
Local Open Scope R_scope.

(** Layers *)
Definition add (x y : list R) : list R := map (fun p => fst p + snd p) (combine x y).
Definition times (x y : list R) : list R := map (fun p => fst p * snd p) (combine x y).
Definition sum_rows (width : nat) (l : list (list R)) : list R := fold_right add (repeat 0 width) l.
Definition affine (l : linear) (x : list R) : list R :=
  map (fun p => rsum (times (fst p) x) + snd p) (combine (l_weight l) (l_bias l)).
Definition normalised (n : norm) (x : list R) : list R :=
  add (times (map (fun y => (y - S_Dataset.mean x) / sqrt (S_Dataset.variance x + / 100000)) x) (n_weight n)) (n_bias n).
Definition batch_normalised (b : batch_norm) (x : list R) : list R :=
  add (times (map (fun p => (fst (fst p) - snd (fst p)) / sqrt (snd p + / 100000)) (combine (combine x (bn_mean b)) (bn_var b))) (bn_weight b)) (bn_bias b).
Definition logistic (x : R) : R := 1 / (1 + exp (- x)).
Definition hyperbolic (x : R) : R := sinh x / cosh x.
(** Softplus (taken as linear above 20) less log 2 *)
Definition activation (x : R) : R := (if Rlt_dec 20 x then x else ln (1 + exp x)) - ln 2.
(** The first half filters the second *)
Definition gated (x : list R) : list R :=
  let half := Nat.div (List.length x + 1) 2 in times (map logistic (firstn half x)) (map hyperbolic (skipn half x)).

(** The graph: edge [q] leads from atom [source] to atom [target] *)
Section Graph.
Context (incoming_first : bool) (E : list (nat * nat)).
Definition source (q : nat) : nat := fst (nth q E (0, 0)%nat).
Definition target (q : nat) : nat := snd (nth q E (0, 0)%nat).
Definition edges : list nat := seq 0 (List.length E).
Definition row (rows : list (list R)) (k : nat) : list R := nth k rows [].
(** (5): every atom hears from the edges that enter it *)
Definition node_layer (b : node_block) (N F : list (list R)) : list (list R) :=
  map (fun a =>
    let message q := gated (normalised (nb_c1_norm b) (affine (nb_c1_linear b) (row N a ++ row F q))) in
    let heard := sum_rows (nb_size b) (map message (filter (fun q => Nat.eqb (target q) a) edges)) in
    map hyperbolic (add (row N a) (normalised (nb_final_norm b) heard))) (seq 0 (List.length N)).
(** (6): every edge hears from its atoms, and from the edges with which it makes a path of two
    edges that does not return: the one before it, or the one after it *)
Definition joins (q r : nat) : bool :=
  if incoming_first then Nat.eqb (source r) (target q) && negb (Nat.eqb (target r) (source q))
  else Nat.eqb (target r) (source q) && negb (Nat.eqb (source r) (target q)).
Definition path_row (N F : list (list R)) (q r : nat) : list R :=
  (if incoming_first then row N (target r) ++ row N (target q) ++ row N (source q)
   else row N (target q) ++ row N (source q) ++ row N (source r)) ++ row F q ++ row F r.
Definition edge_layer (b : edge_block) (N F : list (list R)) : list (list R) :=
  map (fun q =>
    let pair := normalised (eb_c2_norm_2 b) (gated (normalised (eb_c2_norm_1 b)
                  (affine (eb_c2_linear b) (times (row N (target q)) (row N (source q)))))) in
    let message r := gated (normalised (eb_c3_norm_1 b) (affine (eb_c3_linear b) (path_row N F q r))) in
    let heard := sum_rows (eb_size b) (map message (filter (joins q) edges)) in
    map hyperbolic (add (add (row F q) pair) (normalised (eb_c3_norm_2 b) heard))) edges.
(** One node layer and one edge layer per pass *)
Fixpoint passes (nbs : list node_block) (ebs : list edge_block) (N F : list (list R)) : list (list R) :=
  match nbs, ebs with
  | nb :: nbs', eb :: ebs' => let N' := node_layer nb N F in passes nbs' ebs' N' (edge_layer eb N' F)
  | _, _ => F
  end.
End Graph.
(** What the atoms and the edges start with *)
Definition atom_row (g : potgnn) (v : list R) : list R :=
  affine (g_node_linear_2 g) (map activation (affine (g_node_linear_1 g) (map activation v))).
Definition smeared (start stop : R) (steps : nat) (d : R) : list R :=
  let width := (stop - start) / INR (steps - 1) in
  map (fun k => exp (- ((d - (start + INR k * width)) / width) ^ 2 / 2)) (seq 0 steps).
(** The twelve channels of an edge *)
Definition channels (g : potgnn) (r : list R) : list R :=
  affine (g_pol_linear_3 g) (map activation (affine (g_pol_linear_2 g) (map activation (batch_normalised (g_batch_norm g) (affine (g_pol_linear_1 g) r))))).
(** [d] is the length of an edge and [u] its direction *)
Definition edge_geometry (lattice : M3) (p : list V3) (e : nat * nat) (g : R * V3) : Prop :=
  let (i, j) := e in let (d, u) := g in
  0 < d /\ vdot u u = 1 /\
  exists pi pj v, nth_error p i = Some pi /\ nth_error p j = Some pj /\ vall2 half_image (vsub pj pi) v /\ vmul v lattice = vscale d u.
