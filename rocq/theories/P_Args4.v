(** Example for C98 *)
From Coq Require Import String ZArith NArith Reals Lra Lia Bool Arith List.
From Verif Require Import Base LinAlg Constants M_Validate M_Text M_Poscar M_Outcar M_Args S_Args P_Args P_Args2 P_Args3.
Import ListNotations.
Local Open Scope nat_scope.
Local Open Scope list_scope.

Lemma ex_C98 mt :
  let si := VNumber (txt "int") (Fin 14) in
  reference_checks mt (VList [si; si]) (np_zeros [3; 3]) (np_zeros [2; 3]) = Done tt /\
  reference_checks mt (VList [si; si]) (VOther (txt "NoneType")) (np_zeros [2; 2])
    = Raise TypeError (txt "lattice should have type ndarray, not NoneType") /\
  reference_checks mt (VList [si; si]) (np_zeros [3; 3]) (np_zeros [3; 3])
    = Raise ValueError (txt "positions has wrong shape: (3,3) != (2,3)") /\
  (exists x, trajectory_checks mt (fun _ => []) (fun r => Fin r) (np_zeros [1; 2; 3]) (VStr (txt "1.5")) = Done x) /\
  one_word (txt "positions") /\ plain [SAny; SDim 3] /\ element si /\ ~ element (VStr (txt "Si")) /\ whole si /\
  is_tensor (VTensor [1] [Fin 1]) /\ meets (VTensor [1] [Fin 1]) (HasShape [SAny]).
Proof.
  intros si. split; [reflexivity|]. split; [reflexivity|]. split; [reflexivity|]. split.
  - assert (F : float_of (fun r => Fin r) (txt "1.5") = Some (Fin (IZR 15 * powerRZ 10 (-1)))) by reflexivity.
    eexists. apply f_C98_trajectory. split; [exists [1; 2; 3]; split; [eexists; left; reflexivity|repeat constructor]|]. split; [right; left; eexists; split; [reflexivity|exact F]|].
    cbn [not_positive powerRZ]. change (Pos.to_nat 1) with 1%nat. rewrite pow_1. lra.
  - split; [unfold one_word; cbn; intros H; repeat (destruct H as [H|H]; [discriminate H|]); exact H|].
    split; [unfold plain; cbn; intros H; repeat (destruct H as [H|H]; [discriminate H|]); exact H|].
    split; [exists (txt "int"), 14%Z; split; [reflexivity|lia]|].
    split; [intros (t & z & E & _); discriminate E|]. split; [eexists; left; reflexivity|]. split; [do 2 eexists; reflexivity|].
    exists [1]. split; [eexists; right; reflexivity|repeat constructor].
Qed.
