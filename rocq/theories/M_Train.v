(** Model of ramannoodle/pmodel/torch/_train.py: one epoch of training.

    The loss function, the gradient, the optimizer and the running statistics of the batch
    norm are arbitrary functions.  Simplifications: devices are not modelled; gradients are one
    vector over all parameters, and the optimizer holds all of them; the loss function does not
    raise (see [M_TrainLoss] for one that may). *)
From Coq Require Import ZArith Reals Bool Arith List.
From Verif Require Import Base LinAlg M_Validate M_StructUtils M_Torch M_Gnn.
Import ListNotations.
Local Open Scope R_scope.

(** An item of a [PolarizabilityDataset] (dataset/torch/_dataset.py [__getitem__]): lattice,
    atomic numbers, positions and scaled polarizability vector. *)
Record sample := mkSample { s_lattice : M3; s_numbers : list Z; s_positions : list V3; s_target : vec }.

(** What an epoch is given.  [e_loss]: [float(loss_function(out, target))], [None] for NaN;
    [e_gradient]: what [loss.backward()] adds to the gradients, for a model and a batch;
    [e_step]: [optimizer.step()]; [e_track]: the batch norm with the running statistics after a
    forward pass in training mode. *)
Record env (O : Type) := mkEnv {
  e_loss : list (option vec) -> list vec -> option R;
  e_gradient : potgnn -> list sample -> vec;
  e_step : weights -> O -> vec -> weights * O;
  e_track : potgnn -> list sample -> batch_norm }.
Arguments e_loss {O}. Arguments e_gradient {O}. Arguments e_step {O}. Arguments e_track {O}.
(** The model, the state of the optimizer and the gradients *)
Record trainer (O : Type) := mkTrainer { tr_model : potgnn; tr_opt : O; tr_grad : vec }.
Arguments mkTrainer {O}. Arguments tr_model {O}. Arguments tr_opt {O}. Arguments tr_grad {O}.

(** The parameters and buffers of a model, and a model with others *)
Definition weights_of (g : potgnn) : weights :=
  mkWeights (g_embedding g) (g_node_linear_1 g) (g_node_linear_2 g) (g_node_blocks g) (g_edge_blocks g)
    (g_pol_linear_1 g) (g_batch_norm g) (g_pol_linear_2 g) (g_pol_linear_3 g).
Definition put_weights (g : potgnn) (w : weights) (training : bool) : potgnn :=
  mkGnn (g_lattice g) (g_atomic_numbers g) (g_mean g) (g_stddev g) (g_ref_edges g) (g_triplets g) (g_atom_type_map g)
    (w_embedding w) (w_node_linear_1 w) (w_node_linear_2 w) (g_gaussian g) (w_node_blocks w) (w_edge_blocks w)
    (w_pol_linear_1 w) (w_batch_norm w) (w_pol_linear_2 w) (w_pol_linear_3 w) training.
Definition put_batch_norm (w : weights) (b : batch_norm) : weights :=
  mkWeights (w_embedding w) (w_node_linear_1 w) (w_node_linear_2 w) (w_node_blocks w) (w_edge_blocks w)
    (w_pol_linear_1 w) b (w_pol_linear_2 w) (w_pol_linear_3 w).

(** torch.utils.data.BatchSampler without [drop_last] *)
Fixpoint batch_sampler {A} (batch_size : nat) (pending l : list A) : list (list A) :=
  match l with
  | [] => match pending with [] => [] | _ => [pending] end
  | x :: rest =>
      let pending := pending ++ [x] in
      if Nat.eqb (List.length pending) batch_size then pending :: batch_sampler batch_size [] rest
      else batch_sampler batch_size pending rest
  end.

(** _train.py:66-70 and 82-86: the collated batch goes through the model.  In training mode the
    batch norm (_gnn.py:535) raises ValueError when it gets a single row: one edge in all. *)
Definition forward_batch (g : potgnn) (b : list sample) : potgnn * res (list (option vec)) :=
  forward g (map s_lattice b) (map s_numbers b) (match b with [] => 0%nat | x :: _ => List.length (s_positions x) end) (map s_positions b).
Definition apply_model (g : potgnn) (b : list sample) : potgnn * res (list (option vec)) :=
  let (g', r) := forward_batch g b in
  (g', let* out := r in
       if g_training g && Nat.eqb (List.length b * List.length (g_ref_edges g)) 1 then Err ValueError else Ok out).

(** _train.py:65-76 the training loop *)
Fixpoint train_loop {O} (e : env O) (st : trainer O) (batches : list (list sample)) (train_losses : list (option R))
    : trainer O * res (list (option R)) :=
  match batches with
  | [] => (st, Ok train_losses)
  | b :: rest =>
      let (g, r) := apply_model (tr_model st) b in
      match r with
      | Err x => (mkTrainer g (tr_opt st) (tr_grad st), Err x)
      | Ok out =>
          let w := put_batch_norm (weights_of g) (e_track e (tr_model st) b) in
          let train_losses := train_losses ++ [e_loss e out (map s_target b)] in
          let grad := vplus (tr_grad st) (e_gradient e (tr_model st) b) in
          let (w, o) := e_step e w (tr_opt st) grad in
          train_loop e (mkTrainer (put_weights g w (g_training g)) o (map (fun _ => 0) grad)) rest train_losses
      end
  end.

(** [torch.var(out, dim=0)]: the unbiased variance of each of the six columns, NaN for a single
    row or a column with NaN *)
Definition column_var (col : list R) : option R :=
  let n := List.length col in
  if Nat.leb n 1 then None else Some (total (map (fun x => (x - mean col) ^ 2) col) / INR (n - 1)).
Definition torch_var (out : list (option vec)) : list (option R) :=
  match all_some out with
  | None => repeat None 6
  | Some rows => map (fun c => column_var (column rows c)) (seq 0 6)
  end.
(** [np.mean] of floats, NaN if one is or without any; of rows, column by column *)
Fixpoint all_floats (l : list (option R)) : option (list R) :=
  match l with
  | [] => Some []
  | Some x :: l' => match all_floats l' with Some r => Some (x :: r) | None => None end
  | None :: _ => None
  end.
Definition np_mean (l : list (option R)) : option R :=
  match all_floats l with Some (x :: r) => Some (mean (x :: r)) | _ => None end.
Definition np_mean_rows (rows : list (list (option R))) : list (option R) :=
  map (fun c => np_mean (map (fun r => nth c r None) rows)) (seq 0 6).

(** _train.py:81-89 the validation loop *)
Fixpoint validation_loop {O} (e : env O) (g : potgnn) (batches : list (list sample)) (losses : list (option R)) (vars : list (list (option R)))
    : potgnn * res (list (option R) * list (list (option R))) :=
  match batches with
  | [] => (g, Ok (losses, vars))
  | b :: rest =>
      let (g', r) := apply_model g b in
      match r with
      | Err x => (g', Err x)
      | Ok out => validation_loop e g' rest (losses ++ [e_loss e out (map s_target b)]) (vars ++ [torch_var out])
      end
  end.

(** torch.nn.Module.train and eval *)
Definition module_train (g : potgnn) (training : bool) : potgnn := put_weights g (weights_of g) training.

(** _train.py:24-95 [train_single_epoch].  [shuffle] is the order drawn by the random sampler.
    Constructing a loader raises ValueError for an empty data set that is to be shuffled and for
    a batch size below one. *)
Definition train_single_epoch {O} (e : env O) (shuffle : list sample -> list sample) (st : trainer O)
    (training_set validation_set : list sample) (batch_size : Z) : trainer O * res (option R * option R * list (option R)) :=
  match training_set with
  | [] => (st, Err ValueError)
  | _ =>
      if Z.leb batch_size 0 then (st, Err ValueError)
      else
        let validation_size := Nat.min 100 (List.length validation_set) in
        if Nat.leb validation_size 0 then (st, Err ValueError)
        else
          let train_loader := batch_sampler (Z.to_nat batch_size) [] (shuffle training_set) in
          let validation_loader := batch_sampler validation_size [] validation_set in
          let st := mkTrainer (module_train (tr_model st) true) (tr_opt st) (tr_grad st) in
          let (st, r) := train_loop e st train_loader [] in
          match r with
          | Err x => (st, Err x)
          | Ok train_losses =>
              let (g, r) := validation_loop e (module_train (tr_model st) false) validation_loader [] [] in
              let st := mkTrainer g (tr_opt st) (tr_grad st) in
              match r with
              | Err x => (st, Err x)
              | Ok (validation_losses, validation_vars) =>
                  (st, Ok (np_mean train_losses, np_mean validation_losses, np_mean_rows validation_vars))
              end
          end
  end.
