(** Specification vocabulary for the edge polarizabilities of the graph neural network. *)
From Coq Require Import ZArith Reals Bool Arith List.
From Verif Require Import Base LinAlg S_Lattice M_Gnn.
Import ListNotations.
Local Open Scope R_scope.

(** The tensor of an edge along the unit vector [u] with the twelve channels [e]: each entry has
    its own cylinder, [b + (a - b) u_i u_j] on the diagonal and [(a - b) u_i u_j] off it. *)
Definition edge_tensor (e : nat -> R) (u : V3) : M3 :=
  let x := vx u in let y := vy u in let z := vz u in
  let xy := (e 0%nat - e 1%nat) * (x * y) in let xz := (e 2%nat - e 3%nat) * (x * z) in let yz := (e 4%nat - e 5%nat) * (y * z) in
  mkM (mkV (e 7%nat + (e 6%nat - e 7%nat) * (x * x)) xy xz)
      (mkV xy (e 9%nat + (e 8%nat - e 9%nat) * (y * y)) yz)
      (mkV xz yz (e 11%nat + (e 10%nat - e 11%nat) * (z * z))).
(** The six components xx, yy, zz, xy, xz, yz of a symmetric tensor. *)
Definition six (m : M3) : list R := [vx (r0 m); vy (r1 m); vz (r2 m); vy (r0 m); vz (r0 m); vz (r1 m)].

(** [q] is the inversion of [p] in some point, up to lattice vectors. *)
Definition inverted_sample (p q : list V3) : Prop := exists t, Forall2 (fun a b => vcongr (vsub t a) b) p q.
(** No two atoms are exactly half a lattice vector apart along a lattice direction. *)
Definition no_half_cell (p : list V3) : Prop :=
  forall a b, In a p -> In b p -> vall (fun x => ~ congr1 x (/ 2)) (vsub b a).

(** The unit vector [u] points along the edge from atom [i] to the image of atom [j] in the cell
    centred on [i], in Cartesian coordinates. *)
Definition points_along (lattice : M3) (p : list V3) (e : nat * nat * nat) (u : V3) : Prop :=
  let '(_, i, j) := e in
  vdot u u = 1 /\
  exists pi pj d c, nth_error p i = Some pi /\ nth_error p j = Some pj /\ vall2 half_image (vsub pj pi) d /\ 0 < c /\ vmul d lattice = vscale c u.
(** The mean of a list of tensors *)
Definition mean_tensor (l : list M3) : M3 := mscale (/ INR (List.length l)) (fold_right madd m0 l).
(** The twelve channels: an affine function of the row [h] *)
Definition affine_channels (last : linear) (h : list R) : list R :=
  map (fun p => fold_right Rplus 0 (map (fun q => fst q * snd q) (combine (fst p) h)) + snd p) (combine (l_weight last) (l_bias last)).
(** What an edge along [u] contributes when the last layer sees the row [h] *)
Definition contribution (last : linear) (h : list R) (u : V3) : M3 := edge_tensor (fun k => nth k (affine_channels last h) 0) u.
