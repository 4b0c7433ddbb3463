(** Theorems about double precision: C08 (wrapping) and C47 (structure files). *)
From Coq Require Import String ZArith NArith Reals Bool List.
From Flocq Require Import IEEE754.BinarySingleNaN.
From Verif Require Import Base LinAlg M_Validate M_StructUtils M_Text M_Poscar M_Float S_Text S_Float
  P_Float P_Float2 P_Float3 P_Float4.
Import ListNotations.
Local Open Scope R_scope.

(** C08: the wrapped coordinate lies in the closed interval [0,1] and is the double nearest to
    the exact fractional part. *)
Theorem C08_closed_interval : forall x, finite x -> finite (apply_pbc64 x) /\ 0 <= value (apply_pbc64 x) <= 1.
Proof. exact f_C08_range. Qed.
Print Assumptions C08_closed_interval.

Theorem C08_correctly_rounded : forall x, finite x ->
  nearest_double (apply_pbc64 x) (wrap (value x)) /\
  Rabs (value (apply_pbc64 x) - wrap (value x)) <= / 2 ^ 54 /\
  (0 <= value x -> value (apply_pbc64 x) = wrap (value x)).
Proof. exact f_C08_rounded. Qed.
Print Assumptions C08_correctly_rounded.

(** It is 1 exactly for the negative numbers of magnitude at most 2^-54; only there wrapping
    twice differs from wrapping once. *)
Theorem C08_one_iff_tiny_negative : forall x, finite x ->
  (value (apply_pbc64 x) = 1 <-> - / 2 ^ 54 <= value x < 0).
Proof. exact f_C08_one. Qed.
Print Assumptions C08_one_iff_tiny_negative.

Theorem C08_idempotent_elsewhere : forall x, finite x -> ~ (- / 2 ^ 54 <= value x < 0) ->
  value (apply_pbc64 (apply_pbc64 x)) = value (apply_pbc64 x).
Proof. exact f_C08_idem. Qed.
Print Assumptions C08_idempotent_elsewhere.

Theorem C08_not_idempotent_there : forall x, finite x -> - / 2 ^ 54 <= value x < 0 ->
  value (apply_pbc64 x) = 1 /\ value (apply_pbc64 (apply_pbc64 x)) = 0.
Proof. exact f_C08_idem_fails. Qed.
Print Assumptions C08_not_idempotent_there.

Theorem C08_half_open_refuted : ~ (forall x, finite x -> value (apply_pbc64 x) < 1).
Proof. exact f_C08_half_open_refuted. Qed.
Print Assumptions C08_half_open_refuted.

Theorem C08_idempotence_refuted :
  ~ (forall x, finite x -> value (apply_pbc64 (apply_pbc64 x)) = value (apply_pbc64 x)).
Proof. exact f_C08_idem_refuted. Qed.
Print Assumptions C08_idempotence_refuted.

(** Displacements stay in (-1/2,1/2] and are those of exact arithmetic, up to whole cells and
    2^-54 (exactly for nonnegative numbers). *)
Theorem C08_displacement_range : forall d, finite d ->
  finite (apply_pbc_displacement64 d) /\ - / 2 < value (apply_pbc_displacement64 d) <= / 2.
Proof. exact f_C08_disp_range. Qed.
Print Assumptions C08_displacement_range.

Theorem C08_displacement_accuracy : forall d, finite d ->
  same_site (/ 2 ^ 54) (value (apply_pbc_displacement64 d)) (value d) /\
  (0 <= value d -> value (apply_pbc_displacement64 d) = wrapd (value d)).
Proof. exact f_C08_disp_site. Qed.
Print Assumptions C08_displacement_accuracy.

Theorem C08_displace_positions : forall p d, finite p -> finite d ->
  finite (displace_positions64 p d) /\ 0 <= value (displace_positions64 p d) <= 1 /\
  same_site (5 / 2 ^ 54) (value (displace_positions64 p d)) (value p + value d).
Proof. exact f_C08_displace. Qed.
Print Assumptions C08_displace_positions.

Theorem C08_calc_displacement : forall p q, finite p -> finite q ->
  finite (calc_displacement64 p q) /\ - / 2 < value (calc_displacement64 p q) <= / 2 /\
  same_site (5 / 2 ^ 54) (value (calc_displacement64 p q)) (value q - value p).
Proof. exact f_C08_calc. Qed.
Print Assumptions C08_calc_displacement.

Theorem C08_displace_then_calc : forall p d, finite p -> finite d ->
  same_site (10 / 2 ^ 54) (value (calc_displacement64 p (displace_positions64 p d))) (value d).
Proof. exact f_C08_inverse. Qed.
Print Assumptions C08_displace_then_calc.

(** Validation accepts exactly coordinates in [0,1] and NaN, hence everything wrapped, whatever
    it was (infinities and NaN wrap to NaN). *)
Theorem C08_validation : forall a, range_error64 a = false <->
  Forall (fun x => (finite x /\ 0 <= value x <= 1) \/ x = B754_nan) a.
Proof. exact f_C08_verify_iff. Qed.
Print Assumptions C08_validation.

Theorem C08_wrapped_positions_accepted : forall a, range_error64 (map apply_pbc64 a) = false.
Proof. exact f_C08_accepted. Qed.
Print Assumptions C08_wrapped_positions_accepted.

Theorem C08_displaced_positions_accepted : forall l,
  range_error64 (map (fun pd => displace_positions64 (fst pd) (snd pd)) l) = false.
Proof. exact f_C08_displaced_accepted. Qed.
Print Assumptions C08_displaced_positions_accepted.

(** about -1e-20 *)
Example C08_nonvacuous : finite ex_tiny /\ - / 2 ^ 54 <= value ex_tiny < 0.
Proof. exact ex_tiny_range. Qed.

(** C47: a double written with sixteen decimals is read back as one double, which is the same one
    if its magnitude is at least 1/2 (or if it is not finite), differs by at most 1e-16
    otherwise, and is written as the same text again. *)
Theorem C47_reads_one_double : forall x : f64, exists y : f64,
  reads_as (fmt64 x) y /\ forall z, reads_as (fmt64 x) z -> y = z.
Proof.
  intros x. destruct (f_C47_reads x) as [y H]. exists y. split; [exact H|]. intros z. exact (f_C47_unique x y z H).
Qed.
Print Assumptions C47_reads_one_double.

Theorem C47_number_round_trip : forall x y : f64, reads_as (fmt64 x) y ->
  (finite x -> / 2 <= Rabs (value x) -> y = x) /\ (~ finite x -> y = x) /\
  (finite x -> finite y /\ Rabs (value y - value x) <= / 10 ^ 16) /\
  fmt64 y = fmt64 x.
Proof. exact f_C47_number. Qed.
Print Assumptions C47_number_round_trip.

(** Below 1/2 bits can be lost. *)
Theorem C47_small_values_exact_refuted : ~ (forall x y : f64, finite x -> reads_as (fmt64 x) y -> y = x).
Proof. exact f_C47_small_refuted. Qed.
Print Assumptions C47_small_values_exact_refuted.

(** Whole files: [kept] says the above of every entry; writing what was read gives the same file
    (a file model without negative zeros needs the lattice to have no entry in [-5e-17,0)). *)
Theorem C47_structure_file : forall inv pr lattice numbers positions label pieces,
  let E := mkEnv fl64 inv pr in
  List.length (a64_data lattice) = prod_list (a64_shape lattice) ->
  List.length (a64_data positions) = prod_list (a64_shape positions) ->
  structure_pieces E (narr64 lattice) numbers (narr64 positions) label = Ok pieces ->
  exists lat pos,
    read_structure E (concat pieces) = Ok (lat, numbers, pos) /\
    Forall2 kept (a64_data lattice) (entries lat) /\ Forall2 kept (a64_data positions) (entries pos) /\
    (Forall (fun x => ~ tiny_negative x) (a64_data lattice) ->
     structure_pieces E (mkNarr (a64_shape lattice) (entries lat)) numbers (mkNarr (a64_shape positions) (entries pos)) label = Ok pieces).
Proof. exact f_C47_structure. Qed.
Print Assumptions C47_structure_file.

Theorem C47_trajectory_file : forall inv pr lattice numbers pts label pieces,
  let E := mkEnv fl64 inv pr in
  List.length (a64_data lattice) = prod_list (a64_shape lattice) ->
  List.length (a64_data pts) = prod_list (a64_shape pts) ->
  trajectory_pieces E (narr64 lattice) numbers (narr64 pts) label = Ok pieces ->
  exists ps,
    read_positions_ts E (concat pieces) = Ok ps /\ Forall2 kept (a64_data pts) (flat_map entries ps) /\
    trajectory_pieces E (narr64 lattice) numbers (mkNarr (a64_shape pts) (flat_map entries ps)) label = Ok pieces.
Proof. exact f_C47_trajectory. Qed.
Print Assumptions C47_trajectory_file.

Example C47_nonvacuous : forall inv pr, exists pieces,
  structure_pieces (mkEnv fl64 inv pr) (narr64 ex64_lattice) [1; 8]%Z (narr64 ex64_positions) (txt "x") = Ok pieces /\
  List.length (a64_data ex64_lattice) = prod_list (a64_shape ex64_lattice) /\
  List.length (a64_data ex64_positions) = prod_list (a64_shape ex64_positions) /\
  Forall (fun x => ~ tiny_negative x) (a64_data ex64_lattice).
Proof. exact ex64_written. Qed.
