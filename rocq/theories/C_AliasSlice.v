(** C73, C75: slices of a trajectory are views of the frames Python says. *)
From Coq Require Import String ZArith Reals Bool Arith Lia List.
From Verif Require Import Base LinAlg M_Validate M_Interp M_Spectrum M_Reference M_Dynamics M_Alias S_Spectrum S_Alias P_Alias4 P_AliasSlice.
Import ListNotations.
Local Open Scope nat_scope.

(** Slicing a trajectory gives a view: element [n] of frame [j] of the slice is element [n] of
    frame start + j * step of the stored array, for steps of either sign. *)
Theorem C73_slices_leak : forall k s i t dt start stop step j n c e sh old,
  sound s -> nth_error (st_objs s) i = Some (OTrajectory t dt) -> ordinary (st_mem s) t ->
  perform k s (GetSlice i start stop (Some step)) = Ok e ->
  answer k s (Property i PositionsTs) = Ok [SArr sh old] -> List.length old = prod_list sh ->
  let frames := Z.of_nat (hd 0 sh) in
  let frame := (slice_start frames start step + Z.of_nat j * step)%Z in
  before frame (slice_stop frames stop step) step -> n < prod_list (tl sh) ->
  answer k (run k s [GetSlice i start stop (Some step); Write (List.length (st_held s)) (j * prod_list (tl sh) + n) c]) (Property i PositionsTs)
  = Ok [SArr sh (set_nth (Z.to_nat frame * prod_list (tl sh) + n) c old)].
Proof. exact f_C73_slices_leak. Qed.
Print Assumptions C73_slices_leak.

(** reversed, the first frame of the slice is the last one stored *)
Example C73_slices_leak_nonvacuous :
  answer ex_kernel (run ex_kernel ex_world [GetSlice 2 None None (Some (-1)%Z); Write 6 1 (num 5)]) (Property 2 PositionsTs)
  = Ok [SArr [2; 1; 3] [num 0; num 0; num 0; num 0; num 5; num 0]].
Proof. reflexivity. Qed.
