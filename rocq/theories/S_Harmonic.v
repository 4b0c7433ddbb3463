(** Specification vocabulary for spectra of vibrations: C42 (textbook form of MD intensities), C89. *)
From Coq Require Import ZArith Reals List.
From Verif Require Import Base LinAlg M_Reference M_Interp M_Dynamics S_Lattice S_Interp S_Spectrum.
Import ListNotations.
Local Open Scope R_scope.

(** The change of the polarizability during step [j] of a series, and its Fourier sums at
    angular frequency [th] per step *)
Definition change (ts : list M3) (j : nat) : M3 := msub (nth (S j) ts m0) (nth j ts m0).
Definition cosine_sum (ts : list M3) (th : R) : M3 :=
  msum (map (fun j => mscale (cos (th * INR j)) (change ts j)) (seq 0 (List.length ts - 1))).
Definition sine_sum (ts : list M3) (th : R) : M3 :=
  msum (map (fun j => mscale (sin (th * INR j)) (change ts j)) (seq 0 (List.length ts - 1))).
Definition background (ts : list M3) : R :=
  rsum (map (fun j => textbook_intensity (change ts j)) (seq 0 (List.length ts - 1))).

(** A vibration that makes [v_cycles] full cycles during a simulation of [n] steps and changes
    the polarizability by up to [v_swing] *)
Record vibration := mkVib { v_cycles : nat; v_phase : R; v_swing : M3 }.
Definition wave (n : nat) (cycles : nat) (phase : R) (j : nat) : R :=
  cos (2 * PI * INR cycles * INR j / INR n + phase).
(** The polarizability after step [j] when several vibrations are superposed *)
Definition superposed (n : nat) (A : M3) (vs : list vibration) (j : nat) : M3 :=
  madd A (msum (map (fun v => mscale (wave n (v_cycles v) (v_phase v) j) (v_swing v)) vs)).
(** Vibrations of different frequency that the time step resolves (more than two steps per cycle) *)
Definition resolved (n : nat) (cycles : list nat) : Prop :=
  NoDup cycles /\ Forall (fun c => 0 < c /\ 2 * c < n)%nat cycles.

(** A phonon of displacement [e_disp] (fractional) excited with amplitude [e_amp] *)
Record excitation := mkExc { e_disp : list V3; e_cycles : nat; e_phase : R; e_amp : R }.
(** Cartesian displacements after step [j] *)
Definition excited (N n : nat) (L : M3) (es : list excitation) (j : nat) : list V3 :=
  fold_right (fun e u => rows_add (rows_scale (e_amp e * wave n (e_cycles e) (e_phase e) j) (rows_mul (e_disp e) L)) u)
    (repeat v0 N) es.
