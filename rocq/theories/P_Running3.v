(** Predictions in training mode do not see the running statistics *)
From Coq Require Import ZArith Reals Bool Arith List Lia Lra.
From Verif Require Import Base LinAlg M_Validate M_StructUtils M_Torch M_Gnn S_Gnn M_Train S_Train M_Running S_Running P_Running.
Import ListNotations.
Local Open Scope R_scope.

Lemma f_C82_training_mode g m v b : List.length m = List.length (bn_mean (g_batch_norm g)) ->
  g_training g = true ->
  let g' := with_weights g (put_batch_norm (weights_of g) (mkBN m v (bn_weight (g_batch_norm g)) (bn_bias (g_batch_norm g)))) true in
  snd (forward_batch g' b) = snd (forward_batch g b).
Proof.
  intros Hm Ht. cbn zeta. rewrite !f_C82_rows. rewrite Ht. unfold norm_input. unfold apply_batch_norm. destruct g. cbn in *. rewrite Hm. reflexivity.
Qed.
From Verif Require Import S_Lattice S_Torch P_Torch2 P_Gnn P_Gnn2 P_Gnn3 P_Gnn4 P_Train P_Train2 P_Examples10 P_Train4 P_Running2.
Lemma ex_C82_training_mode : exists g0 g, built ex_lattice ex_numbers g0 /\ history g0 g /\ g_training g = true /\ bn_mean (g_batch_norm g) = [0] /\ bn_var (g_batch_norm g) = [1] /\
  List.length [5] = List.length (bn_mean (g_batch_norm g)).
Proof.
  destruct ex_C82_statistics as (g0 & g & HB & HH & _ & _ & _ & _ & Hm & Hv & _).
  exists g0, (set_mode g true). split; [exact HB|]. split; [apply mode_history; [apply (built_ok _ _ _ HB)|exact HH]|]. split; [reflexivity|]. split; [exact Hm|]. split; [exact Hv|].
  change (bn_mean (g_batch_norm (set_mode g true))) with (bn_mean (g_batch_norm g)). rewrite Hm. reflexivity.
Qed.
