(** Model of ramannoodle/pmodel/torch/_train.py with a loss function that may raise.

    As in [M_Train]; [loss] takes the place of [e_loss] there.  It is
    [float(loss_function(out, target))] (_train.py:71-72 and 87-88): a float ([None] for NaN) or
    whatever it raises. *)
From Coq Require Import ZArith Reals Bool Arith List.
From Verif Require Import Base LinAlg M_Validate M_StructUtils M_Torch M_Gnn M_Train.
Import ListNotations.
Local Open Scope R_scope.

Definition loss_function := list (option vec) -> list vec -> res (option R).

(** _train.py:65-76.  The forward pass has updated the running statistics when the loss function
    is called; neither the gradients nor the optimizer have been touched. *)
Fixpoint train_loop_with {O} (e : env O) (loss : loss_function) (st : trainer O) (batches : list (list sample)) (train_losses : list (option R))
    : trainer O * res (list (option R)) :=
  match batches with
  | [] => (st, Ok train_losses)
  | b :: rest =>
      let (g, r) := apply_model (tr_model st) b in
      match r with
      | Err x => (mkTrainer g (tr_opt st) (tr_grad st), Err x)
      | Ok out =>
          let w := put_batch_norm (weights_of g) (e_track e (tr_model st) b) in
          match loss out (map s_target b) with
          | Err x => (mkTrainer (put_weights g w (g_training g)) (tr_opt st) (tr_grad st), Err x)
          | Ok v =>
              let train_losses := train_losses ++ [v] in
              let grad := vplus (tr_grad st) (e_gradient e (tr_model st) b) in
              let (w, o) := e_step e w (tr_opt st) grad in
              train_loop_with e loss (mkTrainer (put_weights g w (g_training g)) o (map (fun _ => 0) grad)) rest train_losses
          end
      end
  end.

(** _train.py:81-89 *)
Fixpoint validation_loop_with (loss : loss_function) (g : potgnn) (batches : list (list sample)) (losses : list (option R)) (vars : list (list (option R)))
    : potgnn * res (list (option R) * list (list (option R))) :=
  match batches with
  | [] => (g, Ok (losses, vars))
  | b :: rest =>
      let (g', r) := apply_model g b in
      match r with
      | Err x => (g', Err x)
      | Ok out =>
          match loss out (map s_target b) with
          | Err x => (g', Err x)
          | Ok v => validation_loop_with loss g' rest (losses ++ [v]) (vars ++ [torch_var out])
          end
      end
  end.

(** _train.py:24-95 [train_single_epoch] *)
Definition train_single_epoch_with {O} (e : env O) (loss : loss_function) (shuffle : list sample -> list sample) (st : trainer O)
    (training_set validation_set : list sample) (batch_size : Z) : trainer O * res (option R * option R * list (option R)) :=
  match training_set with
  | [] => (st, Err ValueError)
  | _ =>
      if Z.leb batch_size 0 then (st, Err ValueError)
      else
        let validation_size := Nat.min 100 (List.length validation_set) in
        if Nat.leb validation_size 0 then (st, Err ValueError)
        else
          let train_loader := batch_sampler (Z.to_nat batch_size) [] (shuffle training_set) in
          let validation_loader := batch_sampler validation_size [] validation_set in
          let st := mkTrainer (module_train (tr_model st) true) (tr_opt st) (tr_grad st) in
          let (st, r) := train_loop_with e loss st train_loader [] in
          match r with
          | Err x => (st, Err x)
          | Ok train_losses =>
              let (g, r) := validation_loop_with loss (module_train (tr_model st) false) validation_loader [] [] in
              let st := mkTrainer g (tr_opt st) (tr_grad st) in
              match r with
              | Err x => (st, Err x)
              | Ok (validation_losses, validation_vars) =>
                  (st, Ok (np_mean train_losses, np_mean validation_losses, np_mean_rows validation_vars))
              end
          end
  end.
