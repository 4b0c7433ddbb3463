(** Training: examples *)
From Coq Require Import ZArith Reals Bool Arith List Lia Lra Permutation.
From Verif Require Import Base LinAlg M_Validate M_StructUtils S_Lattice P_StructUtils M_Torch S_Torch P_Torch P_Torch2 M_Gnn S_Gnn P_Gnn P_Gnn2 P_Gnn3 P_Gnn4 P_Examples10 M_Train S_Train P_Train P_Train2 P_Train3.
Import ListNotations.
Local Open Scope R_scope.

(** A loss that only looks at the targets, and an optimizer that counts its steps *)
Definition ex_per_sample (_ : option vec) (t : vec) : R := nth 0 t 0.
Definition ex_env : env nat :=
  mkEnv nat (fun out targets => Some (fold_right Rplus 0 (map2 ex_per_sample out targets) / INR (List.length out)))
    (fun _ _ => [1]) (fun w n _ => (w, S n)) (fun g _ => g_batch_norm g).
Definition ex_trainer (g : potgnn) : trainer nat := mkTrainer g 0%nat [0].
Definition ex_sample (t : R) : sample := mkSample ex_lattice ex_numbers ex_good [t; 0; 0; 0; 0; 0].
Definition ex_vset : list sample := repeat (ex_sample 0) 100 ++ repeat (ex_sample 1) 50.
Lemma ex_keeps : keeps_sizes ex_env.
Proof. intros w o d. reflexivity. Qed.
Lemma ex_mean : mean_loss ex_env ex_per_sample.
Proof. intros out targets _ _. reflexivity. Qed.
Lemma ex_goes t : goes_with ex_numbers ex_lattice [ex_sample t].
Proof. constructor; [repeat split|constructor]. Qed.
Lemma ex_goes_vset : goes_with ex_numbers ex_lattice ex_vset.
Proof. unfold ex_vset. apply Forall_app. split; apply Forall_forall; intros s Hs; apply repeat_spec in Hs; subst; repeat split. Qed.
Lemma ex_vset_length : List.length ex_vset = 150%nat.
Proof. unfold ex_vset. rewrite app_length, !repeat_length. reflexivity. Qed.
Lemma ex_C82 : exists g0, built ex_lattice ex_numbers g0 /\ history g0 (tr_model (ex_trainer g0)) /\ keeps_sizes ex_env /\ mean_loss ex_env ex_per_sample /\ g_ref_edges g0 <> [] /\ mdet ex_lattice <> 0 /\
  (forall g b, List.length (e_gradient ex_env g b) = List.length (tr_grad (ex_trainer g0))) /\
  goes_with ex_numbers ex_lattice ex_vset /\ Forall (fun s => apart (fun x => x) (List.length ex_numbers) (s_positions s)) ex_vset /\
  exists st' v, train_single_epoch ex_env (fun l => l) (ex_trainer g0) [ex_sample 2; ex_sample 3; ex_sample 4; ex_sample 5; ex_sample 6] ex_vset 3 = (st', Ok v).
Proof.
  destruct ex_C72 as (g0 & g & HB & HH & _ & HD & _ & HE & _). exists g0. split; [exact HB|]. split; [constructor|]. split; [exact ex_keeps|]. split; [exact ex_mean|]. split; [exact HE|]. rewrite cast_m_id in HD. split; [exact HD|]. split; [reflexivity|].
  split; [exact ex_goes_vset|]. split.
  { unfold ex_vset. apply Forall_app. split; apply Forall_forall; intros s Hs; apply repeat_spec in Hs; subst; exact ex_apart. }
  eapply (f_C82_total ex_env (fun l => l) ex_lattice ex_numbers g0 (ex_trainer g0) _ ex_vset 3 HB); try reflexivity.
  - constructor.
  - exact ex_keeps.
  - repeat constructor.
  - exact ex_goes_vset.
  - discriminate.
  - intros E. pose proof ex_vset_length as L. rewrite E in L. discriminate.
  - intros (_ & [X | X]); discriminate X.
Qed.
Lemma sum_targets t (out : list (option vec)) n : List.length out = n -> fold_right Rplus 0 (map2 ex_per_sample out (map s_target (repeat (ex_sample t) n))) = INR n * t.
Proof.
  intros <-. induction out as [|o out IH]; [cbn; ring|]. cbn [List.length repeat map map2 fold_right]. rewrite IH, S_INR. unfold ex_per_sample. cbn. ring.
Qed.
Lemma f_C82_mean_refuted :
  ~ (forall O (e : env O) shuffle lattice numbers g0 st tset vset bs per_sample st' tl vl vv,
  built lattice numbers g0 -> history g0 (tr_model st) -> keeps_sizes e -> (forall l, Permutation (shuffle l) l) ->
  (forall g b, List.length (e_gradient e g b) = List.length (tr_grad st)) -> mean_loss e per_sample -> train_single_epoch e shuffle st tset vset bs = (st', Ok (tl, vl, vv)) ->
  exists blocks outs, cut_in (Nat.min 100 (List.length vset)) vset blocks /\ Forall2 (fun b out => snd (apply_model (tr_model st') b) = Ok out) blocks outs /\
    vl = Some (fold_right Rplus 0 (map2 per_sample (concat outs) (map s_target vset)) / INR (List.length vset))).
Proof.
  intros HALL. destruct ex_C82 as (g0 & HB & HH & HK & HM & _ & _ & HN & _ & _ & st' & [[tl vl] vv] & E).
  assert (HS : forall l : list sample, Permutation l l) by (intros; apply Permutation_refl).
  destruct (HALL _ _ _ _ _ _ _ _ _ _ _ _ _ _ _ HB HH HK HS HN HM E) as (blocks & outs & HC & HO & Ev).
  destruct (f_C82_epoch _ _ _ _ _ _ _ _ _ HB HH HK HS HN _ _ _ _ E) as (_ & _ & _ & blocks' & outs' & _ & _ & _ & _ & _ & _ & HC' & HO' & HA & _).
  rewrite ex_vset_length in *. change (Nat.min 100 150) with 100%nat in *.
  assert (HL : forall bl ol, Forall2 (fun b out => snd (apply_model (tr_model st') b) = Ok out) bl ol -> Forall2 (fun b (out : list (option vec)) => List.length out = List.length b) bl ol).
  { intros bl ol H. eapply f2impl; [|exact H]. cbv beta. intros b out Hb. apply apply_length in Hb. exact Hb. }
  apply HL in HO, HO'.
  assert (Hne : ex_vset <> []) by (intros X; pose proof ex_vset_length as L; rewrite X in L; discriminate).
  destruct (cut_last _ _ _ HC' Hne) as (front & last & -> & HF & Hl & Hn). rewrite ex_vset_length in Hn.
  destruct front as [|f1 [|f2 fs]]; [cbn in Hn; lia| |cbn [List.length] in Hn; lia]. cbn [List.length] in Hn. assert (Hlast : List.length last = 50%nat) by lia.
  assert (Hf1 : List.length f1 = 100%nat) by (inversion HF; assumption).
  destruct HC' as (HC' & _). cbn [app concat] in HC'. rewrite app_nil_r in HC'. unfold ex_vset in HC'.
  assert (E1 : f1 = repeat (ex_sample 0) 100 /\ last = repeat (ex_sample 1) 50).
  { clear - HC' Hf1. assert (A : forall (a b c d : list sample), List.length a = List.length c -> a ++ b = c ++ d -> a = c /\ b = d).
    { clear. induction a as [|x a IH]; intros b [|y c] d H1 H2; try discriminate; [split; [reflexivity|exact H2]|]. cbn in H2. injection H2 as -> H2. destruct (IH b c d) as [-> ->]; [cbn in H1; lia|exact H2|]. split; reflexivity. }
    apply A in HC'; [exact HC'|]. rewrite Hf1, repeat_length. reflexivity. }
  destruct E1 as [E1 E2]. cbn [app] in HO'. destruct outs' as [|o1 [|o2 [|o3 os]]]; try (exfalso; inversion HO' as [|? ? ? ? ? HX]; inversion HX as [|? ? ? ? ? HY]; inversion HY; fail).
  assert (L1 : List.length o1 = 100%nat) by (inversion HO'; congruence). assert (L2 : List.length o2 = 50%nat) by (inversion HO' as [|? ? ? ? ? HX]; inversion HX; congruence). clear HO'. subst f1 last. cbn [app] in HA. cbn [map2 e_loss ex_env] in HA. rewrite L1, L2 in HA. rewrite (sum_targets 0 o1 100 L1), (sum_targets 1 o2 50 L2) in HA.
  match type of HA with averages [Some ?a; Some ?b] _ => assert (HA' : averages [Some a; Some b] (Some ((a + (b + 0)) / INR 2))) by (apply (av_some [a; b]); discriminate) end.
  pose proof (averages_fun _ _ _ HA HA') as Ea.
  assert (Es : fold_right Rplus 0 (map2 ex_per_sample (concat outs) (map s_target ex_vset)) = 50).
  { assert (Lc : List.length (concat outs) = 150%nat). { rewrite <- ex_vset_length, <- (proj1 HC). clear - HO. induction HO; [reflexivity|]. cbn. rewrite !app_length. congruence. }
    rewrite <- (firstn_skipn 100 (concat outs)). unfold ex_vset. rewrite map_app, map2_app by (rewrite firstn_length, map_length, repeat_length, Lc; reflexivity).
    assert (T : forall a b, fold_right Rplus 0 (a ++ b) = fold_right Rplus 0 a + fold_right Rplus 0 b) by (clear; induction a; intros; cbn; [ring|rewrite IHa; ring]).
    rewrite T, (sum_targets 0), (sum_targets 1); [|rewrite skipn_length, Lc; reflexivity|rewrite firstn_length, Lc; reflexivity]. rewrite (INR_IZR_INZ 50). cbn. ring. }
  rewrite Es, Ea in Ev. rewrite !INR_IZR_INZ in Ev. apply (f_equal (fun o => match o with Some x => x | None => 0 end)) in Ev. cbv beta iota in Ev.
  change (Z.of_nat 100) with 100%Z in Ev. change (Z.of_nat 50) with 50%Z in Ev. change (Z.of_nat 2) with 2%Z in Ev. change (Z.of_nat 150) with 150%Z in Ev. lra.
Qed.
