(** Proofs about training *)
From Coq Require Import ZArith Reals Bool Arith List Lia Lra Permutation.
From Verif Require Import Base LinAlg M_Validate M_StructUtils S_Lattice P_StructUtils M_Torch S_Torch P_Torch P_Torch2 M_Gnn S_Gnn P_Gnn P_Gnn2 P_Gnn3 P_Gnn4 M_Train S_Train.
Import ListNotations.
Local Open Scope R_scope.

(** ** Batches *)
Lemma sampler_cut {A} k (l : list A) : (0 < k)%nat -> forall pending, (List.length pending < k)%nat -> cut_in k (pending ++ l) (batch_sampler k pending l).
Proof.
  intros Hk. induction l as [|x l IH]; intros pending Hp; cbn [batch_sampler].
  - destruct pending as [|y p]; [split; [reflexivity|]; split; [intros b []|intros i b E; destruct i; discriminate]|].
    split; [cbn; reflexivity|]. split.
    + intros b [<- | []]. cbn in *. lia.
    + intros i b _ Hi. cbn in Hi. lia.
  - destruct (Nat.eqb_spec (List.length (pending ++ [x])) k) as [E | E].
    + destruct (IH [] Hk) as (H1 & H2 & H3). cbn [app] in *. split; [cbn [concat]; rewrite H1, <- app_assoc; reflexivity|]. split.
      * intros b [<- | Hb]; [lia|apply H2, Hb].
      * intros [|i] b Hb Hi; [injection Hb as <-; exact E|]. apply (H3 i b Hb). cbn in Hi. lia.
    + rewrite app_length in E. cbn in E. assert (Hp' : (List.length (pending ++ [x]) < k)%nat) by (rewrite app_length; cbn; lia).
      specialize (IH _ Hp'). rewrite <- app_assoc in IH. exact IH.
Qed.
Lemma sampler_cut0 {A} k (l : list A) : (0 < k)%nat -> cut_in k l (batch_sampler k [] l).
Proof. intros H. apply (sampler_cut k l H [] H). Qed.
Lemma cut_last {A} k (l : list A) bs : cut_in k l bs -> l <> [] -> exists front last, bs = front ++ [last] /\ Forall (fun b => List.length b = k) front /\ (1 <= List.length last <= k)%nat /\
  List.length l = (List.length front * k + List.length last)%nat.
Proof.
  intros (H1 & H2 & H3) H0. destruct (exists_last (l := bs)) as (front & last & ->); [intros ->; apply H0; rewrite <- H1; reflexivity|].
  exists front, last. split; [reflexivity|].
  assert (HF : Forall (fun b => List.length b = k) front). { apply Forall_forall. intros b Hb. apply In_nth_error in Hb. destruct Hb as [i Hi]. apply (H3 i b).
    - rewrite nth_error_app1; [exact Hi|]. apply nth_error_Some. congruence.
    - rewrite app_length. cbn. assert (i < List.length front)%nat by (apply nth_error_Some; congruence). lia. }
  split; [exact HF|]. split; [apply H2, in_or_app; right; left; reflexivity|].
  rewrite <- H1, concat_app. cbn [concat]. rewrite app_nil_r, app_length. f_equal. clear - HF. induction HF; cbn; [reflexivity|]. rewrite app_length. lia.
Qed.

(** ** Averages *)
Lemma all_floats_spec l : match all_floats l with Some r => l = map Some r | None => In None l end.
Proof.
  induction l as [|[x|] l IH]; cbn; [reflexivity| |left; reflexivity]. destruct (all_floats l); [cbn; congruence|right; exact IH].
Qed.
Lemma np_mean_averages l : l <> [] -> averages l (np_mean l).
Proof.
  intros H. unfold np_mean. pose proof (all_floats_spec l) as HS. destruct (all_floats l) as [[|x r]|].
  - cbn in HS. contradiction.
  - rewrite HS. apply av_some. discriminate.
  - apply av_nan, HS.
Qed.
Lemma averages_fun l a b : averages l a -> averages l b -> a = b.
Proof.
  assert (NI : forall m : list R, ~ In None (map Some m)) by (intros m H; apply in_map_iff in H; destruct H as (? & ? & _); discriminate).
  intros [m Hm | m Hm] H; inversion H as [m' Hm' E | m' Hm' E]; subst.
  - assert (m' = m); [|subst; reflexivity]. clear - E. revert m' E. induction m as [|x m IH]; intros [|y m'] E; try discriminate; [reflexivity|]. injection E as -> E. f_equal. apply IH, E.
  - exfalso. apply (NI m). exact Hm'.
  - exfalso. apply (NI m'). exact Hm.
  - reflexivity.
Qed.

(** ** Training *)
Lemma put_is_with g w t : put_weights g w t = with_weights g w t.
Proof. reflexivity. Qed.
Lemma train_is_mode g t : module_train g t = set_mode g t.
Proof. reflexivity. Qed.
Lemma forward_weights g a b c d : weights_of (fst (forward g a b c d)) = weights_of g /\ g_training (fst (forward g a b c d)) = g_training g.
Proof. destruct (forward_state g a b c d) as [-> | ->]; split; reflexivity. Qed.
Lemma apply_fst g b : fst (apply_model g b) = fst (forward_batch g b).
Proof. unfold apply_model. destruct (forward_batch g b). reflexivity. Qed.
Lemma apply_eval g b : g_training g = false -> apply_model g b = forward_batch g b.
Proof. intros H. unfold apply_model. rewrite H. destruct (forward_batch g b) as [g' [out|e]]; reflexivity. Qed.
Lemma apply_snd g b out : snd (apply_model g b) = Ok out -> snd (forward_batch g b) = Ok out.
Proof. unfold apply_model. destruct (forward_batch g b) as [g' [o|e]]; cbn; [|discriminate]. destruct (_ && _); [discriminate|auto]. Qed.
Lemma zeros_of (l : vec) : map (fun _ : R => 0) l = repeat 0 (List.length l).
Proof. induction l; cbn; congruence. Qed.
Lemma vplus_len (a b : vec) : List.length b = List.length a -> List.length (vplus a b) = List.length a.
Proof. unfold vplus. revert b. induction a as [|x a IH]; intros [|y b] H; try discriminate; [reflexivity|]. cbn in *. f_equal. apply IH. lia. Qed.
Lemma loop_steps {O} (e : env O) n : (forall g b, List.length (e_gradient e g b) = n) -> forall bs st acc st' ls, List.length (tr_grad st) = n -> g_training (tr_model st) = true -> train_loop e st bs acc = (st', Ok ls) ->
  exists ls', ls = acc ++ ls' /\ List.length ls' = List.length bs /\ steps e (tr_grad st) (tr_model st) (tr_opt st) bs (tr_model st') (tr_opt st') ls' /\ tr_grad st' = match bs with [] => tr_grad st | _ => repeat 0 n end.
Proof.
  intros HN. induction bs as [|b bs IH]; intros st acc st' ls Hn Ht H; cbn [train_loop] in H.
  - injection H as <- <-. exists []. rewrite app_nil_r. split; [reflexivity|]. split; [reflexivity|]. split; [constructor|reflexivity].
  - destruct (apply_model (tr_model st) b) as [g r] eqn:EA. destruct r as [out|x]; [|discriminate].
    assert (EW : weights_of g = weights_of (tr_model st) /\ g_training g = true).
    { pose proof (forward_weights (tr_model st) (map s_lattice b) (map s_numbers b) (match b with [] => 0%nat | x :: _ => List.length (s_positions x) end) (map s_positions b)) as [W1 W2].
      change (forward _ _ _ _ _) with (forward_batch (tr_model st) b) in W1, W2. rewrite <- apply_fst, EA in W1, W2. cbn [fst] in *. split; congruence. }
    destruct EW as [EW Et]. rewrite EW, Et in H.
    destruct (e_step e _ (tr_opt st) (vplus (tr_grad st) (e_gradient e (tr_model st) b))) as [w o] eqn:ES.
    assert (EL : List.length (vplus (tr_grad st) (e_gradient e (tr_model st) b)) = List.length (tr_grad st)) by (apply vplus_len; rewrite HN; congruence).
    apply IH in H; [|cbn; rewrite map_length, EL; exact Hn|reflexivity]. cbn [tr_grad tr_model tr_opt] in H. destruct H as (ls' & -> & Hl & HS & HZ).
    exists (e_loss e out (map s_target b) :: ls'). split; [rewrite <- app_assoc; reflexivity|]. split; [cbn; congruence|]. split.
    + eapply s_step; [rewrite EA; reflexivity|exact ES|]. rewrite EA. cbn [fst]. rewrite zeros_of, EL, put_is_with in HS. exact HS.
    + rewrite HZ. destruct bs; [|reflexivity]. rewrite zeros_of, EL, Hn. reflexivity.
Qed.
Lemma loop_fails {O} (e : env O) n : (forall g b, List.length (e_gradient e g b) = n) -> forall bs st acc st' x, List.length (tr_grad st) = n -> g_training (tr_model st) = true -> train_loop e st bs acc = (st', Err x) ->
  exists front b rest g ls, bs = front ++ b :: rest /\ steps e (tr_grad st) (tr_model st) (tr_opt st) front g (tr_opt st') ls /\ apply_model g b = (tr_model st', Err x).
Proof.
  intros HN. induction bs as [|b bs IH]; intros st acc st' x Hn Ht H; cbn [train_loop] in H; [discriminate|].
  destruct (apply_model (tr_model st) b) as [g r] eqn:EA. destruct r as [out|y].
  - assert (EW : weights_of g = weights_of (tr_model st) /\ g_training g = true).
    { pose proof (forward_weights (tr_model st) (map s_lattice b) (map s_numbers b) (match b with [] => 0%nat | x :: _ => List.length (s_positions x) end) (map s_positions b)) as [W1 W2].
      change (forward _ _ _ _ _) with (forward_batch (tr_model st) b) in W1, W2. rewrite <- apply_fst, EA in W1, W2. cbn [fst] in *. split; congruence. }
    destruct EW as [EW Et]. rewrite EW, Et in H.
    destruct (e_step e _ (tr_opt st) (vplus (tr_grad st) (e_gradient e (tr_model st) b))) as [w o] eqn:ES.
    assert (EL : List.length (vplus (tr_grad st) (e_gradient e (tr_model st) b)) = List.length (tr_grad st)) by (apply vplus_len; rewrite HN; congruence).
    apply IH in H; [|cbn; rewrite map_length, EL; exact Hn|reflexivity]. cbn [tr_grad tr_model tr_opt] in H. destruct H as (front & b' & rest & g' & ls & -> & HS & HA).
    exists (b :: front), b', rest, g', (e_loss e out (map s_target b) :: ls). split; [reflexivity|]. split; [|exact HA].
    eapply s_step; [rewrite EA; reflexivity|exact ES|]. rewrite EA. cbn [fst]. rewrite zeros_of, EL, put_is_with in HS. exact HS.
  - injection H as <- <-. exists [], b, bs, (tr_model st), []. split; [reflexivity|]. split; [constructor|]. cbn. exact EA.
Qed.
Lemma vplus_zeros v n : List.length v = n -> vplus (repeat 0 n) v = v.
Proof. intros <-. unfold vplus. induction v as [|x v IH]; [reflexivity|]. cbn. rewrite Rplus_0_l. f_equal. exact IH. Qed.
Lemma steps_clean {O} (e : env O) n stale g o bs g' o' ls : (forall g b, List.length (e_gradient e g b) = n) -> steps e stale g o bs g' o' ls -> stale = repeat 0 n -> clean_steps e g o bs g' o' ls.
Proof.
  intros HN. induction 1 as [|stale g o b out w' o' bs g' o'' ls H1 H2 H3 IH]; intros ->; [constructor|].
  eapply c_step; [exact H1| |].
  - rewrite vplus_zeros in H2 by apply HN. exact H2.
  - apply IH. rewrite repeat_length. reflexivity.
Qed.
(** Training is part of a model's history. *)
Lemma steps_history {O} (e : env O) g0 stale g o bs g' o' ls : keeps_sizes e -> steps e stale g o bs g' o' ls -> net_ok g0 -> history g0 g -> history g0 g'.
Proof.
  intros HK H H0. induction H as [|stale g o b out w' o' bs g' o'' ls H1 H2 H3 IH]; intros HH; [exact HH|].
  apply IH. apply h_weights; [rewrite apply_fst; apply h_forward, HH|]. pose proof (HK (put_batch_norm (weights_of g) (e_track e g b)) o (vplus stale (e_gradient e g b))) as HL. rewrite H2 in HL. cbn in HL. rewrite HL.
  destruct (history_same g0 g H0 HH) as (_ & _ & _ & _ & _ & _ & _ & HE & _). exact HE.
Qed.
Lemma mode_history g0 g t : net_ok g0 -> history g0 g -> history g0 (set_mode g t).
Proof.
  intros H0 HH. change (set_mode g t) with (with_weights g (weights_of g) t). apply h_weights; [exact HH|]. destruct (history_same g0 g H0 HH) as (_ & _ & _ & _ & _ & _ & _ & HE & _). exact HE.
Qed.

(** ** Validation *)
Lemma forward_same g g' a b c d : coherent (g_triplets g) -> only_cache g g' -> g_training g' = g_training g -> snd (forward g' a b c d) = snd (forward g a b c d).
Proof.
  intros C (st & tr & -> & (G1 & G2 & G3 & G4) & C') Ht. cbn in Ht. subst tr. unfold forward.
  change (batch_graph (set_triplets (set_mode g (g_training g)) st) a c d) with (batch_graph g a c d).
  destruct (batch_graph g a c d) as [[ei uv] di].
  assert (EM : mapM (node_embedding (set_triplets (set_mode g (g_training g)) st)) (concat b) = mapM (node_embedding g) (concat b)) by reflexivity.
  rewrite EM. destruct (mapM (node_embedding g) (concat b)) as [ne|x]; [|reflexivity]. cbn [g_triplets set_triplets].
  destruct (get_triplets_eq st (Z.of_nat (List.length a)) C') as (E1 & _). destruct (get_triplets_eq (g_triplets g) (Z.of_nat (List.length a)) C) as (E2 & _).
  destruct (get_triplets st (Z.of_nat (List.length a))) as [s1 r1]. destruct (get_triplets (g_triplets g) (Z.of_nat (List.length a))) as [s2 r2]. cbn [fst snd] in *.
  assert (ER : r1 = r2). { rewrite E1, E2. destruct (Z.leb _ 0); [reflexivity|]. unfold fresh. rewrite G1, G2, G3. reflexivity. }
  rewrite ER. reflexivity.
Qed.
Lemma validation_runs {O} (e : env O) : forall bs g ls vs g' r, coherent (g_triplets g) -> g_training g = false -> validation_loop e g bs ls vs = (g', r) ->
  used g g' /\ only_cache g g' /\ g_training g' = false /\
  match r with
  | Ok (ls', vs') => exists outs, Forall2 (fun b out => snd (apply_model g b) = Ok out) bs outs /\ ls' = ls ++ map2 (fun out b => e_loss e out (map s_target b)) outs bs /\ vs' = vs ++ map torch_var outs
  | Err x => exists front b rest, bs = front ++ b :: rest /\ Forall (fun b => exists out, snd (apply_model g b) = Ok out) front /\ snd (apply_model g b) = Err x
  end.
Proof.
  induction bs as [|b bs IH]; intros g ls vs g' r C Ht H; cbn [validation_loop] in H.
  - injection H as <- <-. split; [constructor|]. split; [apply only_cache_refl, C|]. split; [exact Ht|]. exists []. split; [constructor|]. cbn. rewrite !app_nil_r. split; reflexivity.
  - assert (U1 : used g (fst (apply_model g b))) by (rewrite (apply_eval g b Ht); apply u_forward; [constructor|exact Ht]).
    pose proof (used_cache g _ C U1) as O1.
    assert (T1 : g_training (fst (apply_model g b)) = false). { rewrite (apply_eval g b Ht). unfold forward_batch. rewrite (proj2 (forward_weights g _ _ _ _)). exact Ht. }
    destruct (apply_model g b) as [g1 r1] eqn:EA. cbn [fst] in *. destruct r1 as [out|x].
    + apply IH in H; [|apply (only_cache_coherent _ _ O1)|exact T1]. destruct H as (U & OC & T & HR).
      assert (SM : forall b', snd (apply_model g1 b') = snd (apply_model g b')). { intros b'. rewrite (apply_eval g b' Ht), (apply_eval g1 b' T1). apply forward_same; [exact C|exact O1|congruence]. }
      split. { clear - U U1 T1. induction U; [exact U1|apply u_mode; assumption|apply u_forward; assumption|apply u_calc; assumption]. }
      split; [eapply only_cache_trans; eassumption|]. split; [exact T|].
      destruct r as [[ls' vs']|x].
      * destruct HR as (outs & H1 & H2 & H3). exists (out :: outs). split; [constructor; [rewrite EA; reflexivity|]|].
        -- eapply f2impl; [|exact H1]. cbv beta. intros b' o' Hb. rewrite <- SM. exact Hb.
        -- rewrite H2, H3. cbn [map2 map]. rewrite <- !app_assoc. split; reflexivity.
      * destruct HR as (front & b' & rest & -> & H1 & H2). exists (b :: front), b', rest. split; [reflexivity|]. split.
        -- constructor; [exists out; rewrite EA; reflexivity|]. eapply Forall_impl; [|exact H1]. cbv beta. intros b'' (o & Ho). exists o. rewrite <- SM. exact Ho.
        -- rewrite <- SM. exact H2.
    + injection H as <- <-. split; [exact U1|]. split; [exact O1|]. split; [exact T1|]. exists [], b, bs. split; [reflexivity|]. split; [constructor|]. rewrite EA. reflexivity.
Qed.
