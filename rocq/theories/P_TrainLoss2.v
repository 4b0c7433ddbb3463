(** An epoch whose loss function raises at the second batch *)
From Coq Require Import ZArith Reals Bool Arith List Lia Lra Permutation.
From Verif Require Import Base LinAlg M_Validate M_StructUtils S_Lattice P_StructUtils M_Torch S_Torch P_Torch P_Torch2 M_Gnn S_Gnn P_Gnn P_Gnn2 P_Gnn3 P_Gnn4 P_Examples10 M_Train S_Train P_Train P_Train2 P_Train3 P_Train4 M_TrainLoss S_TrainLoss P_TrainLoss.
Import ListNotations.
Local Open Scope R_scope.

(** A loss function for batches of three samples *)
Definition ex_loss : loss_function := fun out targets => if Nat.eqb (List.length out) 3 then Ok (e_loss ex_env out targets) else Err TypeError.
(** A loss function that never raises *)
Definition ex_quiet : loss_function := fun out targets => Ok (e_loss ex_env out targets).
Definition ex_tset : list sample := [ex_sample 2; ex_sample 3; ex_sample 4; ex_sample 5; ex_sample 6].
Lemma ex_C82_loss : exists g0, built ex_lattice ex_numbers g0 /\ history g0 (tr_model (ex_trainer g0)) /\ keeps_sizes ex_env /\
  (forall g b, List.length (e_gradient ex_env g b) = List.length (tr_grad (ex_trainer g0))) /\
  (exists st' v, train_single_epoch_with ex_env ex_quiet (fun l => l) (ex_trainer g0) ex_tset ex_vset 3 = (st', Ok v)) /\
  exists st', train_single_epoch_with ex_env ex_loss (fun l => l) (ex_trainer g0) ex_tset ex_vset 3 = (st', Err TypeError) /\
    tr_opt st' = 1%nat /\ g_training (tr_model st') = true.
Proof.
  destruct ex_C82 as (g0 & HB & HH & HK & _ & _ & _ & HN & _ & _ & st' & v & E).
  exists g0. split; [exact HB|]. split; [exact HH|]. split; [exact HK|]. split; [exact HN|].
  change [ex_sample 2; ex_sample 3; ex_sample 4; ex_sample 5; ex_sample 6] with ex_tset in E.
  split. { exists st', v. rewrite f_C82_never; [exact E|intros out t; eexists; reflexivity]. }
  assert (HV : ex_vset <> []) by (intros E'; pose proof ex_vset_length as L; rewrite E' in L; discriminate).
  destruct (epoch_cases ex_env (fun l => l) (ex_trainer g0) ex_tset ex_vset 3 _ _ E ltac:(discriminate) HV eq_refl) as [(st1 & x & _ & _ & X) | (st1 & losses & EL & _)]; [discriminate|].
  unfold train_single_epoch_with. change ex_tset with (ex_sample 2 :: skipn 1 ex_tset). cbn [Z.leb Z.compare].
  destruct (Nat.leb_spec (Nat.min 100 (List.length ex_vset)) 0) as [L | L]; [destruct ex_vset; [contradiction|cbn in L; lia]|]. rewrite !train_is_mode.
  change (ex_sample 2 :: skipn 1 ex_tset) with ex_tset in *.
  change (batch_sampler (Z.to_nat 3) [] ex_tset) with [[ex_sample 2; ex_sample 3; ex_sample 4]; [ex_sample 5; ex_sample 6]] in *.
  set (b1 := [ex_sample 2; ex_sample 3; ex_sample 4]) in *. set (b2 := [ex_sample 5; ex_sample 6]) in *.
  apply (loop_steps ex_env _ HN) in EL; [|reflexivity|reflexivity]. cbn [tr_grad tr_model tr_opt app ex_trainer] in EL. destruct EL as (ls' & _ & _ & HST & _).
  inversion HST as [|? ? ? ? out1 w1 o1 ? ? ? ? A1 S1 HST2]; subst. inversion HST2 as [|? ? ? ? out2 w2 o2 ? ? ? ? A2 S2 _]; subst. clear HST HST2.
  cbn [ex_env e_step e_track] in S1. injection S1 as <- <-.
  set (ga := set_mode g0 true) in *. pose proof (apply_weights ga b1) as [W1 T1]. pose proof (apply_length _ _ _ A1) as L1. pose proof (apply_length _ _ _ A2) as L2.
  cbn [train_loop_with tr_model ex_trainer tr_opt tr_grad]. fold ga.
  destruct (apply_model ga b1) as [ga1 ra1] eqn:EA1. cbn [fst snd] in *. subst ra1.
  unfold ex_loss at 1. rewrite L1. change (Nat.eqb (List.length b1) 3) with true. cbv iota. cbn [ex_env e_step e_track e_gradient tr_model tr_opt tr_grad].
  rewrite W1, T1, put_is_with. change (g_training ga) with true in *.
  set (gb := with_weights ga1 _ true) in *. pose proof (apply_weights gb b2) as [W2 T2].
  destruct (apply_model gb b2) as [gb1 rb1] eqn:EA2. cbn [fst snd] in *. subst rb1.
  unfold ex_loss. rewrite L2. change (Nat.eqb (List.length b2) 3) with false. cbv iota.
  eexists. split; [reflexivity|]. cbn [tr_opt tr_model]. split; [reflexivity|]. change (g_training (put_weights gb1 _ (g_training gb1))) with (g_training gb1). rewrite T2. reflexivity.
Qed.
