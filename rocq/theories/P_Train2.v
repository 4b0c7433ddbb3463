(** Proofs about training: the epoch *)
From Coq Require Import ZArith Reals Bool Arith List Lia Lra Permutation.
From Verif Require Import Base LinAlg M_Validate M_StructUtils S_Lattice P_StructUtils M_Torch S_Torch P_Torch P_Torch2 M_Gnn S_Gnn P_Gnn P_Gnn2 P_Gnn3 P_Gnn4 M_Train S_Train P_Train.
Import ListNotations.
Local Open Scope R_scope.

(** ** Variances *)
Lemma all_some_spec l : match all_some l with Some r => l = map Some r | None => In None l end.
Proof. induction l as [|[x|] l IH]; cbn; [reflexivity| |left; reflexivity]. destruct (all_some l); [cbn; congruence|right; exact IH]. Qed.
Lemma var_spread out c : (c < 6)%nat -> spread out c (nth c (torch_var out) None).
Proof.
  intros Hc. unfold torch_var. pose proof (all_some_spec out) as HS. destruct (all_some out) as [rows|].
  - rewrite (nth_indep _ None (column_var (column rows 6))) by (rewrite map_length, seq_length; exact Hc).
    rewrite (map_nth (fun c => column_var (column rows c))), seq_nth by exact Hc. cbn [Nat.add]. unfold column_var, column. rewrite map_length.
    match goal with |- context [Nat.leb ?a 1] => destruct (Nat.leb_spec a 1) end.
    + right. split; [right; rewrite HS, map_length; exact H|reflexivity].
    + left. exists rows. split; [exact HS|]. split; [exact H|]. cbv zeta. unfold mean, total. rewrite map_length. reflexivity.
  - right. split; [left; exact HS|]. apply nth_repeat.
Qed.
Lemma var_length out : List.length (torch_var out) = 6%nat.
Proof. unfold torch_var. destruct (all_some out); [rewrite map_length, seq_length|rewrite repeat_length]; reflexivity. Qed.
Lemma mean_rows_nth rows c : (c < 6)%nat -> nth c (np_mean_rows rows) None = np_mean (map (fun r => nth c r None) rows).
Proof.
  intros Hc. unfold np_mean_rows. rewrite (nth_indep _ None (np_mean (map (fun r => nth 6 r None) rows))) by (rewrite map_length, seq_length; exact Hc).
  rewrite (map_nth (fun c => np_mean (map (fun r => nth c r None) rows))), seq_nth by exact Hc. reflexivity.
Qed.

(** ** The epoch *)
Section Epoch.
Context {O : Type} (e : env O) (shuffle : list sample -> list sample) (lattice : M3) (numbers : list Z) (g0 : potgnn) (st : trainer O) (tset vset : list sample) (bs : Z).
Context (HB : built lattice numbers g0) (HH : history g0 (tr_model st)) (HK : keeps_sizes e) (HS : forall l, Permutation (shuffle l) l)
  (HN : forall g b, List.length (e_gradient e g b) = List.length (tr_grad st)).
Lemma f_C82_arguments : tset = [] \/ vset = [] \/ (bs <= 0)%Z -> train_single_epoch e shuffle st tset vset bs = (st, Err ValueError).
Proof.
  intros H. unfold train_single_epoch. destruct tset as [|t ts]; [reflexivity|]. destruct (Z.leb_spec bs 0); [reflexivity|].
  destruct H as [H | [-> | H]]; [discriminate|reflexivity|lia].
Qed.
Let start := set_mode (tr_model st) true.
Lemma epoch_cases st' r : train_single_epoch e shuffle st tset vset bs = (st', r) -> tset <> [] -> vset <> [] -> (0 < bs)%Z ->
  let batches := batch_sampler (Z.to_nat bs) [] (shuffle tset) in
  let blocks := batch_sampler (Nat.min 100 (List.length vset)) [] vset in
  (exists st1 x, train_loop e (mkTrainer start (tr_opt st) (tr_grad st)) batches [] = (st1, Err x) /\ st' = st1 /\ r = Err x) \/
  (exists st1 losses, train_loop e (mkTrainer start (tr_opt st) (tr_grad st)) batches [] = (st1, Ok losses) /\
     ((exists g x, validation_loop e (set_mode (tr_model st1) false) blocks [] [] = (g, Err x) /\ st' = mkTrainer g (tr_opt st1) (tr_grad st1) /\ r = Err x) \/
      (exists g vl vv, validation_loop e (set_mode (tr_model st1) false) blocks [] [] = (g, Ok (vl, vv)) /\ st' = mkTrainer g (tr_opt st1) (tr_grad st1) /\ r = Ok (np_mean losses, np_mean vl, np_mean_rows vv)))).
Proof.
  intros H Ht Hv Hb batches blocks. unfold train_single_epoch in H. destruct tset as [|t0 ts]; [contradiction|]. destruct (Z.leb_spec bs 0); [lia|].
  destruct (Nat.leb_spec (Nat.min 100 (List.length vset)) 0) as [L | L]; [destruct vset; [contradiction|cbn in L; lia]|].
  rewrite !train_is_mode in H. fold start in H. fold batches in H. fold blocks in H.
  destruct (train_loop e (mkTrainer start (tr_opt st) (tr_grad st)) batches []) as [st1 [losses|x]] eqn:EL.
  - right. exists st1, losses. split; [reflexivity|]. rewrite train_is_mode in H. destruct (validation_loop e (set_mode (tr_model st1) false) blocks [] []) as [g [[vl vv]|x]] eqn:EV; injection H as <- <-.
    + right. exists g, vl, vv. repeat split.
    + left. exists g, x. repeat split.
  - left. injection H as <- <-. exists st1, x. repeat split.
Qed.
Lemma start_history : history g0 start.
Proof. apply mode_history; [apply (built_ok _ _ _ HB)|exact HH]. Qed.
Lemma coherent_of g : history g0 g -> coherent (g_triplets g).
Proof. intros H. destruct (reachable _ _ _ _ HB H) as ((C & _) & _). exact C. Qed.
Lemma args_ok st' v : train_single_epoch e shuffle st tset vset bs = (st', Ok v) -> tset <> [] /\ vset <> [] /\ (0 < bs)%Z.
Proof.
  intros H. destruct (Z.ltb_spec 0 bs) as [L | L]; [|rewrite f_C82_arguments in H by (right; right; lia); discriminate].
  split; [intros E; rewrite f_C82_arguments in H by (left; exact E); discriminate|]. split; [intros E; rewrite f_C82_arguments in H by (right; left; exact E); discriminate|exact L].
Qed.
Lemma blocks_cut : vset <> [] -> cut_in (Nat.min 100 (List.length vset)) vset (batch_sampler (Nat.min 100 (List.length vset)) [] vset).
Proof. intros H. apply sampler_cut0. destruct vset; [contradiction|cbn; lia]. Qed.
Lemma cut_nonempty {A} k (l : list A) c : cut_in k l c -> l <> [] -> c <> [].
Proof. intros (H & _) H0 ->. apply H0. rewrite <- H. reflexivity. Qed.
Lemma shuffled_nonempty : tset <> [] -> shuffle tset <> [].
Proof. intros H E. apply H. pose proof (HS tset) as P. rewrite E in P. apply Permutation_nil in P. exact P. Qed.
Lemma f_C82_epoch st' tl vl vv : train_single_epoch e shuffle st tset vset bs = (st', Ok (tl, vl, vv)) ->
  exists batches g losses blocks outs,
    cut_in (Z.to_nat bs) (shuffle tset) batches /\
    steps e (tr_grad st) (set_mode (tr_model st) true) (tr_opt st) batches g (tr_opt st') losses /\ averages losses tl /\
    used (set_mode g false) (tr_model st') /\ g_training (tr_model st') = false /\ Forall (fun x => x = 0) (tr_grad st') /\
    cut_in (Nat.min 100 (List.length vset)) vset blocks /\
    Forall2 (fun b out => snd (apply_model (tr_model st') b) = Ok out) blocks outs /\
    averages (map2 (fun out b => e_loss e out (map s_target b)) outs blocks) vl /\
    List.length vv = 6%nat /\
    (forall c, (c < 6)%nat -> exists vs, Forall2 (fun out v => spread out c v) outs vs /\ averages vs (nth c vv None)).
Proof.
  intros H. destruct (args_ok _ _ H) as (Ht & Hv & Hb). destruct (epoch_cases _ _ H Ht Hv Hb) as [(st1 & x & _ & _ & E) | (st1 & losses & EL & [(g & x & _ & _ & E) | (g & ls & vs & EV & -> & E)])]; try discriminate.
  injection E as -> -> ->.
  assert (HC : cut_in (Z.to_nat bs) (shuffle tset) (batch_sampler (Z.to_nat bs) [] (shuffle tset))) by (apply sampler_cut0; lia).
  pose proof (cut_nonempty _ _ _ HC (shuffled_nonempty Ht)) as HNE. pose proof (blocks_cut Hv) as HV. pose proof (cut_nonempty _ _ _ HV Hv) as HVE.
  set (blocks := batch_sampler (Nat.min 100 (List.length vset)) [] vset) in *. clearbody blocks.
  apply (loop_steps e _ HN) in EL; [|reflexivity|reflexivity]. cbn [tr_grad tr_model tr_opt app] in EL. destruct EL as (ls' & -> & Hl & HST & HG).
  assert (H1 : history g0 (tr_model st1)). { eapply steps_history; [exact HK|exact HST|apply (built_ok _ _ _ HB)|apply start_history]. }
  assert (H2 : history g0 (set_mode (tr_model st1) false)) by (apply mode_history; [apply (built_ok _ _ _ HB)|exact H1]).
  apply validation_runs in EV; [|apply coherent_of, H2|reflexivity]. destruct EV as (U & OC & T & outs & HO & -> & ->). cbn [app].
  eexists _, (tr_model st1), ls', _, outs. split; [exact HC|]. split; [exact HST|]. split; [apply np_mean_averages; destruct ls'; [destruct (batch_sampler (Z.to_nat bs) [] (shuffle tset)); [contradiction|discriminate]|discriminate]|].
  split; [exact U|]. split; [exact T|]. split. { cbn [tr_grad]. rewrite HG. destruct (batch_sampler (Z.to_nat bs) [] (shuffle tset)); [contradiction|]. apply Forall_forall. intros x Hx. apply repeat_spec in Hx. exact Hx. }
  split; [exact HV|]. split. { eapply f2impl; [|exact HO]. cbv beta. intros b out Hbo. rewrite <- Hbo. cbn [tr_model]. rewrite !apply_eval by (assumption || reflexivity). apply forward_same; [apply coherent_of, H2|exact OC|rewrite T; reflexivity]. }
  split. { apply np_mean_averages. destruct HO; [contradiction|discriminate]. }
  split; [unfold np_mean_rows; rewrite map_length, seq_length; reflexivity|].
  intros c Hc. exists (map (fun r => nth c r None) (map torch_var outs)). split.
  - rewrite map_map. clear - Hc. induction outs; constructor; [apply var_spread, Hc|exact IHouts].
  - rewrite mean_rows_nth by exact Hc. apply np_mean_averages. intros E. apply map_eq_nil in E. apply map_eq_nil in E. subst outs. inversion HO as [E1|]. symmetry in E1. contradiction.
Qed.
Lemma f_C82_clean st' v n : train_single_epoch e shuffle st tset vset bs = (st', Ok v) -> tr_grad st = repeat 0 n ->
  exists batches g losses, cut_in (Z.to_nat bs) (shuffle tset) batches /\ Permutation (concat batches) tset /\
    clean_steps e (set_mode (tr_model st) true) (tr_opt st) batches g (tr_opt st') losses /\ used (set_mode g false) (tr_model st').
Proof.
  intros H Hn. destruct v as [[tl vl] vv]. destruct (f_C82_epoch _ _ _ _ H) as (batches & g & losses & _ & _ & HC & HST & _ & U & _).
  exists batches, g, losses. split; [exact HC|]. split; [rewrite (proj1 HC); apply HS|]. split; [|exact U].
  eapply steps_clean; [exact HN|exact HST|]. rewrite Hn, repeat_length. reflexivity.
Qed.
Lemma f_C82_predictions st' v : train_single_epoch e shuffle st tset vset bs = (st', Ok v) ->
  exists batches g losses, steps e (tr_grad st) (set_mode (tr_model st) true) (tr_opt st) batches g (tr_opt st') losses /\ Permutation (concat batches) tset /\
    forall cast shape ps, snd (calc_polarizabilities cast (tr_model st') shape ps) = snd (calc_polarizabilities cast g shape ps).
Proof.
  intros H. destruct v as [[tl vl] vv]. destruct (f_C82_epoch _ _ _ _ H) as (batches & g & losses & _ & _ & HC & HST & _ & U & _).
  exists batches, g, losses. split; [exact HST|]. split; [rewrite (proj1 HC); apply HS|]. intros cast shape ps.
  assert (H1 : history g0 g). { eapply steps_history; [exact HK|exact HST|apply (built_ok _ _ _ HB)|apply start_history]. }
  apply (f_C72_history lattice numbers g0 g _ cast shape ps HB H1).
  clear - U. remember (set_mode g false) as g1. induction U; [subst; apply u_mode, u_start|apply u_mode; auto|apply u_forward; auto|apply u_calc; auto].
Qed.
Lemma f_C82_interrupted st' x : train_single_epoch e shuffle st tset vset bs = (st', Err x) -> tset <> [] -> vset <> [] -> (0 < bs)%Z ->
  exists batches g losses, cut_in (Z.to_nat bs) (shuffle tset) batches /\
    ((exists front b rest, batches = front ++ b :: rest /\ steps e (tr_grad st) (set_mode (tr_model st) true) (tr_opt st) front g (tr_opt st') losses /\ apply_model g b = (tr_model st', Err x)) \/
     (steps e (tr_grad st) (set_mode (tr_model st) true) (tr_opt st) batches g (tr_opt st') losses /\ used (set_mode g false) (tr_model st') /\ exists b, b <> [] /\ incl b vset /\ snd (apply_model (set_mode g false) b) = Err x)).
Proof.
  intros H Ht Hv Hb. assert (HC : cut_in (Z.to_nat bs) (shuffle tset) (batch_sampler (Z.to_nat bs) [] (shuffle tset))) by (apply sampler_cut0; lia).
  destruct (epoch_cases _ _ H Ht Hv Hb) as [(st1 & y & EL & -> & E) | (st1 & losses & EL & [(g & y & EV & -> & E) | (g & ls & vs & _ & _ & E)])]; try discriminate; injection E as <-.
  - apply (loop_fails e _ HN) in EL; [|reflexivity|reflexivity]. cbn [tr_grad tr_model tr_opt app] in EL. destruct EL as (front & b & rest & g & ls & E & HST & HA).
    eexists _, g, ls. split; [exact HC|]. left. exists front, b, rest. split; [exact E|]. split; [exact HST|exact HA].
  - apply (loop_steps e _ HN) in EL; [|reflexivity|reflexivity]. cbn [tr_grad tr_model tr_opt app] in EL. destruct EL as (ls' & -> & Hl & HST & HG).
    assert (H1 : history g0 (tr_model st1)). { eapply steps_history; [exact HK|exact HST|apply (built_ok _ _ _ HB)|apply start_history]. }
    assert (H2 : history g0 (set_mode (tr_model st1) false)) by (apply mode_history; [apply (built_ok _ _ _ HB)|exact H1]).
    apply validation_runs in EV; [|apply coherent_of, H2|reflexivity]. destruct EV as (U & OC & T & front & b & rest & Eb & _ & Hx).
    eexists _, (tr_model st1), ls'. split; [exact HC|]. right. split; [exact HST|]. split; [exact U|]. exists b. pose proof (blocks_cut Hv) as (HV & HV2 & _). rewrite Eb in HV2. split; [specialize (HV2 b ltac:(apply in_or_app; right; left; reflexivity)); intros ->; cbn in HV2; lia|]. split; [|exact Hx].
    rewrite Eb, concat_app in HV. cbn [concat] in HV. intros y Hy. rewrite <- HV. apply in_or_app. right. apply in_or_app. left. exact Hy.
Qed.
End Epoch.
