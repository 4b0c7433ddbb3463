(** Proofs about training with a loss function that may raise *)
From Coq Require Import ZArith Reals Bool Arith List Lia Lra Permutation.
From Verif Require Import Base LinAlg M_Validate M_StructUtils S_Lattice P_StructUtils M_Torch S_Torch P_Torch P_Torch2 M_Gnn S_Gnn P_Gnn P_Gnn2 P_Gnn3 P_Gnn4 M_Train S_Train P_Train P_Train2 M_TrainLoss S_TrainLoss.
Import ListNotations.
Local Open Scope R_scope.

Lemma apply_weights g b : weights_of (fst (apply_model g b)) = weights_of g /\ g_training (fst (apply_model g b)) = g_training g.
Proof. rewrite apply_fst. apply forward_weights. Qed.

Lemma with_cases {O} (e : env O) loss n : (forall g b, List.length (e_gradient e g b) = n) -> forall bs st acc st' r, List.length (tr_grad st) = n -> g_training (tr_model st) = true ->
  train_loop_with e loss st bs acc = (st', r) ->
  match r with
  | Ok ls => exists ls', ls = acc ++ ls' /\ List.length ls' = List.length bs /\ loss_steps e loss (tr_grad st) (tr_model st) (tr_opt st) bs (tr_model st') (tr_opt st') (tr_grad st') ls'
  | Err x => exists front b rest g ls, bs = front ++ b :: rest /\ loss_steps e loss (tr_grad st) (tr_model st) (tr_opt st) front g (tr_opt st') (tr_grad st') ls /\
      (apply_model g b = (tr_model st', Err x) \/ exists out, snd (apply_model g b) = Ok out /\ loss out (map s_target b) = Err x /\ tr_model st' = after_pass e g b)
  end.
Proof.
  intros HN. induction bs as [|b bs IH]; intros st acc st' r Hn Ht H; cbn [train_loop_with] in H.
  - injection H as <- <-. exists []. rewrite app_nil_r. split; [reflexivity|]. split; [reflexivity|constructor].
  - pose proof (apply_weights (tr_model st) b) as [EW Et]. destruct (apply_model (tr_model st) b) as [g r1] eqn:EA. cbn [fst] in EW, Et. rewrite Ht in Et.
    destruct r1 as [out|x].
    + rewrite EW, Et in H. destruct (loss out (map s_target b)) as [v|x] eqn:ELS.
      * destruct (e_step e _ (tr_opt st) (vplus (tr_grad st) (e_gradient e (tr_model st) b))) as [w o] eqn:ES.
        assert (EL : List.length (vplus (tr_grad st) (e_gradient e (tr_model st) b)) = List.length (tr_grad st)) by (apply vplus_len; rewrite HN; congruence).
        assert (HST : forall f g' o'' gr ls, loss_steps e loss (map (fun _ : R => 0) (vplus (tr_grad st) (e_gradient e (tr_model st) b))) (put_weights g w true) o f g' o'' gr ls ->
          loss_steps e loss (tr_grad st) (tr_model st) (tr_opt st) (b :: f) g' o'' gr (v :: ls)).
        { intros f g' o'' gr ls HS. eapply l_step; [rewrite EA; reflexivity|exact ELS|exact ES|]. rewrite EA. cbn [fst]. rewrite zeros_of, EL, put_is_with in HS. exact HS. }
        apply IH in H; [|cbn; rewrite map_length, EL; exact Hn|reflexivity]. cbn [tr_grad tr_model tr_opt] in H. destruct r as [ls|x].
        -- destruct H as (ls' & -> & Hl & HS). exists (v :: ls'). split; [rewrite <- app_assoc; reflexivity|]. split; [cbn; congruence|]. apply HST, HS.
        -- destruct H as (front & b' & rest & g' & ls & -> & HS & HA). exists (b :: front), b', rest, g', (v :: ls). split; [reflexivity|]. split; [apply HST, HS|exact HA].
      * injection H as <- <-. exists [], b, bs, (tr_model st), []. split; [reflexivity|]. split; [constructor|]. right. exists out. cbn [tr_model]. unfold after_pass. rewrite EA. cbn [fst snd].
        split; [reflexivity|]. split; [exact ELS|]. reflexivity.
    + injection H as <- <-. exists [], b, bs, (tr_model st), []. split; [reflexivity|]. split; [constructor|]. left. cbn. exact EA.
Qed.

Lemma loss_steps_steps {O} (e : env O) loss stale g o bs g' o' gr ls : loss_steps e loss stale g o bs g' o' gr ls -> steps (never_raising e loss) stale g o bs g' o' ls.
Proof.
  induction 1 as [|stale g o b out v w' o' bs g' o'' grad losses H1 H2 H3 H4 IH]; [constructor|].
  assert (EV : v = e_loss (never_raising e loss) out (map s_target b)) by (cbn; rewrite H2; reflexivity). rewrite EV.
  eapply s_step; [exact H1|exact H3|exact IH].
Qed.
Lemma loss_steps_grad {O} (e : env O) loss stale g o bs g' o' gr ls : loss_steps e loss stale g o bs g' o' gr ls -> gr = match bs with [] => stale | _ => repeat 0 (List.length stale) end.
Proof. induction 1 as [|stale g o b out v w' o' bs g' o'' grad losses H1 H2 H3 H4 IH]; [reflexivity|]. rewrite IH, repeat_length. destruct bs; reflexivity. Qed.

Lemma validation_with (loss : loss_function) : forall bs g ls vs g' r, coherent (g_triplets g) -> g_training g = false -> validation_loop_with loss g bs ls vs = (g', r) ->
  used g g' /\ only_cache g g' /\ g_training g' = false /\
  match r with
  | Ok (ls', vs') => exists outs news, Forall2 (fun b out => snd (apply_model g b) = Ok out) bs outs /\ Forall2 (fun ob v => loss (fst ob) (map s_target (snd ob)) = Ok v) (combine outs bs) news /\
      ls' = ls ++ news /\ vs' = vs ++ map torch_var outs
  | Err x => exists front b rest, bs = front ++ b :: rest /\ (snd (apply_model g b) = Err x \/ exists out, snd (apply_model g b) = Ok out /\ loss out (map s_target b) = Err x)
  end.
Proof.
  induction bs as [|b bs IH]; intros g ls vs g' r C Ht H; cbn [validation_loop_with] in H.
  - injection H as <- <-. split; [constructor|]. split; [apply only_cache_refl, C|]. split; [exact Ht|]. exists [], []. split; [constructor|]. split; [constructor|]. cbn. rewrite !app_nil_r. split; reflexivity.
  - assert (U1 : used g (fst (apply_model g b))) by (rewrite (apply_eval g b Ht); apply u_forward; [constructor|exact Ht]).
    pose proof (used_cache g _ C U1) as O1.
    assert (T1 : g_training (fst (apply_model g b)) = false) by (rewrite (proj2 (apply_weights g b)); exact Ht).
    destruct (apply_model g b) as [g1 r1] eqn:EA. cbn [fst] in *. destruct r1 as [out|x].
    + destruct (loss out (map s_target b)) as [v|x] eqn:ELS.
      * apply IH in H; [|apply (only_cache_coherent _ _ O1)|exact T1]. destruct H as (U & OC & T & HR).
        assert (SM : forall b', snd (apply_model g1 b') = snd (apply_model g b')). { intros b'. rewrite (apply_eval g b' Ht), (apply_eval g1 b' T1). apply forward_same; [exact C|exact O1|congruence]. }
        split. { clear - U U1 T1. induction U; [exact U1|apply u_mode; assumption|apply u_forward; assumption|apply u_calc; assumption]. }
        split; [eapply only_cache_trans; eassumption|]. split; [exact T|].
        destruct r as [[ls' vs']|x].
        -- destruct HR as (outs & news & H1 & HL & H2 & H3). exists (out :: outs), (v :: news). split; [constructor; [rewrite EA; reflexivity|]|].
           ++ eapply f2impl; [|exact H1]. cbv beta. intros b' o' Hb. rewrite <- SM. exact Hb.
           ++ split; [constructor; [exact ELS|exact HL]|]. rewrite H2, H3. cbn [map]. rewrite <- !app_assoc. split; reflexivity.
        -- destruct HR as (front & b' & rest & -> & H2). exists (b :: front), b', rest. split; [reflexivity|]. rewrite <- SM. exact H2.
      * injection H as <- <-. split; [exact U1|]. split; [exact O1|]. split; [exact T1|]. exists [], b, bs. split; [reflexivity|]. right. exists out. rewrite EA. split; [reflexivity|exact ELS].
    + injection H as <- <-. split; [exact U1|]. split; [exact O1|]. split; [exact T1|]. exists [], b, bs. split; [reflexivity|]. left. rewrite EA. reflexivity.
Qed.

(** ** A loss that never raises *)
Lemma loop_never {O} (e : env O) loss : (forall out target, exists v, loss out target = Ok v) -> forall bs st acc, train_loop_with e loss st bs acc = train_loop (never_raising e loss) st bs acc.
Proof.
  intros HL. induction bs as [|b bs IH]; intros st acc; [reflexivity|]. cbn [train_loop_with train_loop]. destruct (apply_model (tr_model st) b) as [g [out|x]]; [|reflexivity].
  cbn [never_raising e_loss e_gradient e_step e_track]. destruct (HL out (map s_target b)) as [v ->]. destruct (e_step e _ _ _) as [w o]. apply IH.
Qed.
Lemma validation_never {O} (e : env O) loss : (forall out target, exists v, loss out target = Ok v) -> forall bs g ls vs, validation_loop_with loss g bs ls vs = validation_loop (never_raising e loss) g bs ls vs.
Proof.
  intros HL. induction bs as [|b bs IH]; intros g ls vs; [reflexivity|]. cbn [validation_loop_with validation_loop]. destruct (apply_model g b) as [g1 [out|x]]; [|reflexivity].
  cbn [never_raising e_loss]. destruct (HL out (map s_target b)) as [v ->]. apply IH.
Qed.
Lemma f_C82_never {O} (e : env O) loss shuffle st tset vset bs : (forall out target, exists v, loss out target = Ok v) ->
  train_single_epoch_with e loss shuffle st tset vset bs = train_single_epoch (never_raising e loss) shuffle st tset vset bs.
Proof.
  intros HL. unfold train_single_epoch_with, train_single_epoch. destruct tset; [reflexivity|]. destruct (Z.leb bs 0); [reflexivity|]. destruct (Nat.leb _ 0); [reflexivity|].
  rewrite (loop_never e loss HL). destruct (train_loop _ _ _ _) as [st1 [ls|x]]; [|reflexivity]. rewrite (validation_never e loss HL). reflexivity.
Qed.

(** ** The epoch *)
Section Epoch.
Context {O : Type} (e : env O) (loss : loss_function) (shuffle : list sample -> list sample) (lattice : M3) (numbers : list Z) (g0 : potgnn) (st : trainer O) (tset vset : list sample) (bs : Z).
Context (HB : built lattice numbers g0) (HH : history g0 (tr_model st)) (HK : keeps_sizes e) 
  (HN : forall g b, List.length (e_gradient e g b) = List.length (tr_grad st)).
Let start := set_mode (tr_model st) true.
Lemma f_C82_with_arguments : tset = [] \/ vset = [] \/ (bs <= 0)%Z -> train_single_epoch_with e loss shuffle st tset vset bs = (st, Err ValueError).
Proof.
  intros H. unfold train_single_epoch_with. destruct tset as [|t ts]; [reflexivity|]. destruct (Z.leb_spec bs 0); [reflexivity|].
  destruct H as [H | [-> | H]]; [discriminate|reflexivity|lia].
Qed.
Lemma with_args st' v : train_single_epoch_with e loss shuffle st tset vset bs = (st', Ok v) -> tset <> [] /\ vset <> [] /\ (0 < bs)%Z.
Proof.
  intros H. destruct (Z.ltb_spec 0 bs) as [L | L]; [|rewrite f_C82_with_arguments in H by (right; right; lia); discriminate].
  split; [intros E; rewrite f_C82_with_arguments in H by (left; exact E); discriminate|]. split; [intros E; rewrite f_C82_with_arguments in H by (right; left; exact E); discriminate|exact L].
Qed.
Lemma with_epoch_cases st' r : train_single_epoch_with e loss shuffle st tset vset bs = (st', r) -> tset <> [] -> vset <> [] -> (0 < bs)%Z ->
  let batches := batch_sampler (Z.to_nat bs) [] (shuffle tset) in
  let blocks := batch_sampler (Nat.min 100 (List.length vset)) [] vset in
  (exists st1 x, train_loop_with e loss (mkTrainer start (tr_opt st) (tr_grad st)) batches [] = (st1, Err x) /\ st' = st1 /\ r = Err x) \/
  (exists st1 losses, train_loop_with e loss (mkTrainer start (tr_opt st) (tr_grad st)) batches [] = (st1, Ok losses) /\
     ((exists g x, validation_loop_with loss (set_mode (tr_model st1) false) blocks [] [] = (g, Err x) /\ st' = mkTrainer g (tr_opt st1) (tr_grad st1) /\ r = Err x) \/
      (exists g vl vv, validation_loop_with loss (set_mode (tr_model st1) false) blocks [] [] = (g, Ok (vl, vv)) /\ st' = mkTrainer g (tr_opt st1) (tr_grad st1) /\ r = Ok (np_mean losses, np_mean vl, np_mean_rows vv)))).
Proof.
  intros H Ht Hv Hb batches blocks. unfold train_single_epoch_with in H. destruct tset as [|t0 ts]; [contradiction|]. destruct (Z.leb_spec bs 0); [lia|].
  destruct (Nat.leb_spec (Nat.min 100 (List.length vset)) 0) as [L | L]; [destruct vset; [contradiction|cbn in L; lia]|].
  rewrite !train_is_mode in H. fold start in H. fold batches in H. fold blocks in H.
  destruct (train_loop_with e loss (mkTrainer start (tr_opt st) (tr_grad st)) batches []) as [st1 [losses|x]] eqn:EL.
  - right. exists st1, losses. split; [reflexivity|]. rewrite train_is_mode in H. destruct (validation_loop_with loss (set_mode (tr_model st1) false) blocks [] []) as [g [[vl vv]|x]] eqn:EV; injection H as <- <-.
    + right. exists g, vl, vv. repeat split.
    + left. exists g, x. repeat split.
  - left. injection H as <- <-. exists st1, x. repeat split.
Qed.
Lemma with_history bs' g o gr ls : loss_steps e loss (tr_grad st) start (tr_opt st) bs' g o gr ls -> history g0 g.
Proof.
  intros H. eapply (steps_history (never_raising e loss)); [exact HK|apply loss_steps_steps in H; exact H|apply (built_ok _ _ _ HB)|]. apply mode_history; [apply (built_ok _ _ _ HB)|exact HH].
Qed.
Lemma with_coherent g : history g0 g -> coherent (g_triplets g).
Proof. intros H. destruct (reachable _ _ _ _ HB H) as ((C & _) & _). exact C. Qed.
Lemma with_blocks_cut : vset <> [] -> cut_in (Nat.min 100 (List.length vset)) vset (batch_sampler (Nat.min 100 (List.length vset)) [] vset).
Proof. intros H. apply sampler_cut0. destruct vset; [contradiction|cbn; lia]. Qed.
Lemma used_predictions g g' : history g0 g -> used (set_mode g false) g' -> forall cast shape ps, snd (calc_polarizabilities cast g' shape ps) = snd (calc_polarizabilities cast g shape ps).
Proof.
  intros H1 U cast shape ps. apply (f_C72_history lattice numbers g0 g _ cast shape ps HB H1).
  clear - U. remember (set_mode g false) as g1. induction U; [subst; apply u_mode, u_start|apply u_mode; auto|apply u_forward; auto|apply u_calc; auto].
Qed.

Lemma f_C82_with_epoch (HS : forall l, Permutation (shuffle l) l) st' tl vl vv : train_single_epoch_with e loss shuffle st tset vset bs = (st', Ok (tl, vl, vv)) ->
  exists batches g losses blocks outs vlosses,
    cut_in (Z.to_nat bs) (shuffle tset) batches /\
    loss_steps e loss (tr_grad st) (set_mode (tr_model st) true) (tr_opt st) batches g (tr_opt st') (tr_grad st') losses /\ averages losses tl /\
    used (set_mode g false) (tr_model st') /\ g_training (tr_model st') = false /\ Forall (fun x => x = 0) (tr_grad st') /\
    cut_in (Nat.min 100 (List.length vset)) vset blocks /\
    Forall2 (fun b out => snd (apply_model (tr_model st') b) = Ok out) blocks outs /\
    Forall2 (fun ob v => loss (fst ob) (map s_target (snd ob)) = Ok v) (combine outs blocks) vlosses /\ averages vlosses vl /\
    List.length vv = 6%nat /\
    (forall c, (c < 6)%nat -> exists vs, Forall2 (fun out v => spread out c v) outs vs /\ averages vs (nth c vv None)).
Proof.
  intros H. destruct (with_args _ _ H) as (Ht & Hv & Hb). destruct (with_epoch_cases _ _ H Ht Hv Hb) as [(st1 & x & _ & _ & E) | (st1 & losses & EL & [(g & x & _ & _ & E) | (g & ls & vs & EV & -> & E)])]; try discriminate.
  injection E as -> -> ->.
  assert (HC : cut_in (Z.to_nat bs) (shuffle tset) (batch_sampler (Z.to_nat bs) [] (shuffle tset))) by (apply sampler_cut0; lia).
  assert (HNE : batch_sampler (Z.to_nat bs) [] (shuffle tset) <> []). { apply (cut_nonempty _ _ _ HC). intros E. apply Ht. pose proof (HS tset) as P. rewrite E in P. apply Permutation_nil in P. exact P. }
  pose proof (with_blocks_cut Hv) as HV. pose proof (cut_nonempty _ _ _ HV Hv) as HVE.
  set (blocks := batch_sampler (Nat.min 100 (List.length vset)) [] vset) in *. clearbody blocks.
  apply (with_cases e loss _ HN) in EL; [|reflexivity|reflexivity]. cbn [tr_grad tr_model tr_opt app] in EL. destruct EL as (ls' & -> & Hl & HST).
  pose proof (with_history _ _ _ _ _ HST) as H1.
  assert (H2 : history g0 (set_mode (tr_model st1) false)) by (apply mode_history; [apply (built_ok _ _ _ HB)|exact H1]).
  apply validation_with in EV; [|apply with_coherent, H2|reflexivity]. destruct EV as (U & OC & T & outs & news & HO & HLS & -> & ->). cbn [app].
  eexists _, (tr_model st1), ls', _, outs, news. split; [exact HC|]. split; [exact HST|]. split; [apply np_mean_averages; destruct ls'; [destruct (batch_sampler (Z.to_nat bs) [] (shuffle tset)); [contradiction|discriminate]|discriminate]|].
  split; [exact U|]. split; [exact T|]. split. { cbn [tr_grad]. rewrite (loss_steps_grad _ _ _ _ _ _ _ _ _ _ HST). destruct (batch_sampler (Z.to_nat bs) [] (shuffle tset)); [contradiction|]. apply Forall_forall. intros x Hx. apply repeat_spec in Hx. exact Hx. }
  split; [exact HV|]. split. { eapply f2impl; [|exact HO]. cbv beta. intros b out Hbo. rewrite <- Hbo. cbn [tr_model]. rewrite !apply_eval by (assumption || reflexivity). apply forward_same; [apply with_coherent, H2|exact OC|rewrite T; reflexivity]. }
  split; [exact HLS|].
  split. { apply np_mean_averages. destruct HO; [contradiction|inversion HLS; discriminate]. }
  split; [unfold np_mean_rows; rewrite map_length, seq_length; reflexivity|].
  intros c Hc. exists (map (fun r => nth c r None) (map torch_var outs)). split.
  - rewrite map_map. clear - Hc. induction outs; constructor; [apply var_spread, Hc|exact IHouts].
  - rewrite mean_rows_nth by exact Hc. apply np_mean_averages. intros E. apply map_eq_nil in E. apply map_eq_nil in E. subst outs. inversion HO as [E1|]. symmetry in E1. contradiction.
Qed.
Lemma f_C82_with_interrupted st' x : train_single_epoch_with e loss shuffle st tset vset bs = (st', Err x) -> tset <> [] -> vset <> [] -> (0 < bs)%Z ->
  exists batches g losses, cut_in (Z.to_nat bs) (shuffle tset) batches /\
    ((exists front b rest, batches = front ++ b :: rest /\ loss_steps e loss (tr_grad st) (set_mode (tr_model st) true) (tr_opt st) front g (tr_opt st') (tr_grad st') losses /\
        (apply_model g b = (tr_model st', Err x) \/
         exists out, snd (apply_model g b) = Ok out /\ loss out (map s_target b) = Err x /\ tr_model st' = after_pass e g b)) \/
     (loss_steps e loss (tr_grad st) (set_mode (tr_model st) true) (tr_opt st) batches g (tr_opt st') (tr_grad st') losses /\
        (forall cast shape ps, snd (calc_polarizabilities cast (tr_model st') shape ps) = snd (calc_polarizabilities cast g shape ps)) /\
        exists b, b <> [] /\ incl b vset /\
          (snd (apply_model (set_mode g false) b) = Err x \/ exists out, snd (apply_model (set_mode g false) b) = Ok out /\ loss out (map s_target b) = Err x))).
Proof.
  intros H Ht Hv Hb. assert (HC : cut_in (Z.to_nat bs) (shuffle tset) (batch_sampler (Z.to_nat bs) [] (shuffle tset))) by (apply sampler_cut0; lia).
  destruct (with_epoch_cases _ _ H Ht Hv Hb) as [(st1 & y & EL & -> & E) | (st1 & losses & EL & [(g & y & EV & -> & E) | (g & ls & vs & _ & _ & E)])]; try discriminate; injection E as <-.
  - apply (with_cases e loss _ HN) in EL; [|reflexivity|reflexivity]. cbn [tr_grad tr_model tr_opt app] in EL. destruct EL as (front & b & rest & g & ls & E & HST & HA).
    eexists _, g, ls. split; [exact HC|]. left. exists front, b, rest. split; [exact E|]. split; [exact HST|exact HA].
  - apply (with_cases e loss _ HN) in EL; [|reflexivity|reflexivity]. cbn [tr_grad tr_model tr_opt app] in EL. destruct EL as (ls' & -> & Hl & HST).
    pose proof (with_history _ _ _ _ _ HST) as H1.
    assert (H2 : history g0 (set_mode (tr_model st1) false)) by (apply mode_history; [apply (built_ok _ _ _ HB)|exact H1]).
    apply validation_with in EV; [|apply with_coherent, H2|reflexivity]. destruct EV as (U & OC & T & front & b & rest & Eb & Hx).
    eexists _, (tr_model st1), ls'. split; [exact HC|]. right. split; [exact HST|]. split; [apply used_predictions; [exact H1|exact U]|]. exists b. pose proof (with_blocks_cut Hv) as (HV & HV2 & _). rewrite Eb in HV2. split; [specialize (HV2 b ltac:(apply in_or_app; right; left; reflexivity)); intros ->; cbn in HV2; lia|]. split; [|exact Hx].
    rewrite Eb, concat_app in HV. cbn [concat] in HV. intros y Hy. rewrite <- HV. apply in_or_app. right. apply in_or_app. left. exact Hy.
Qed.
End Epoch.
