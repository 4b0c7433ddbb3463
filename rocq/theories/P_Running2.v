(** An epoch of two batches whose statistics are tracked *)
From Coq Require Import ZArith Reals Bool Arith List Lia Lra Permutation.
From Verif Require Import Base LinAlg M_Validate M_StructUtils S_Lattice P_StructUtils M_Torch S_Torch P_Torch P_Torch2 M_Gnn S_Gnn P_Gnn P_Gnn2 P_Gnn3 P_Gnn4 P_Examples10 M_Train S_Train P_Train P_Train2 P_Train3 P_Train4 M_Running S_Running P_Running.
Import ListNotations.
Local Open Scope R_scope.

Definition ex_tracking : env nat := mkEnv nat (e_loss ex_env) (e_gradient ex_env) (e_step ex_env) norm_after.
Lemma ex_C82_statistics : exists g0 g, built ex_lattice ex_numbers g0 /\ history g0 (tr_model (ex_trainer g)) /\ keeps_sizes ex_tracking /\ keeps_statistics ex_tracking /\
  (forall g b, e_track ex_tracking g b = norm_after g b) /\
  (forall g' b, List.length (e_gradient ex_tracking g' b) = List.length (tr_grad (ex_trainer g))) /\
  bn_mean (g_batch_norm g) = [0] /\ bn_var (g_batch_norm g) = [1] /\
  (exists st' v, train_single_epoch ex_tracking (fun l => l) (ex_trainer g) [ex_sample 2; ex_sample 3; ex_sample 4; ex_sample 5; ex_sample 6] ex_vset 3 = (st', Ok v)) /\
  moving 1 [2; 3] = 129 / 100.
Proof.
  destruct (ex_built ex_weights eq_refl) as (g0 & E & HB & _).
  assert (HH : history g0 (with_weights g0 ex_weights false)).
  { apply h_weights; [apply h_new|]. assert (HE : g_embedding g0 = w_embedding ex_weights); [|rewrite HE; reflexivity].
    unfold ex_net, potgnn_new in E. repeat match type of E with (if ?c then _ else _) = _ => destruct c; [discriminate|] end. change (verify_ndarray_shape [3; 3]%nat [Some 3%nat; Some 3%nat]) with (@Ok unit tt) in E. cbn [rbind] in E.
    destruct (radius_graph_pbc _ _ _ _) as [[a b] c]. destruct (assign_types _ _ _); [|discriminate]. cbn [rbind] in E. destruct (gaussian_new _ _ _); [|discriminate]. cbn [rbind] in E. injection E as <-. reflexivity. }
  exists g0, (with_weights g0 ex_weights false). split; [exact HB|]. split; [exact HH|]. split; [intros w o d; reflexivity|]. split; [intros w o d; split; reflexivity|]. split; [reflexivity|]. split; [reflexivity|].
  split; [reflexivity|]. split; [reflexivity|]. split.
  - eapply (f_C82_total ex_tracking (fun l => l) ex_lattice ex_numbers g0 (ex_trainer (with_weights g0 ex_weights false)) _ ex_vset 3 HB); try reflexivity.
    + exact HH.
    + intros w o d. reflexivity.
    + repeat constructor.
    + exact ex_goes_vset.
    + discriminate.
    + intros E'. pose proof ex_vset_length as L. rewrite E' in L. discriminate.
    + intros (_ & [X | X]); discriminate X.
  - rewrite !moving_cons, moving_nil. lra.
Qed.
