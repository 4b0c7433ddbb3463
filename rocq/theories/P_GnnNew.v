(** Proofs of C84: construction of a PotGNN. *)
From Coq Require Import ZArith Reals Bool Arith List Lia Lra.
From Verif Require Import Base LinAlg M_Validate M_StructUtils S_Lattice P_StructUtils M_Torch S_Torch P_Torch P_Torch2 M_Gnn S_Gnn
  P_Gnn P_Gnn2 P_Gnn3 S_GnnNew.
Import ListNotations.
Local Open Scope R_scope.

Lemma shape33 sh : (verify_ndarray_shape sh [Some 3; Some 3]%nat = Ok tt /\ sh = [3; 3]%nat) \/
  (verify_ndarray_shape sh [Some 3; Some 3]%nat = Err ValueError /\ sh <> [3; 3]%nat).
Proof.
  destruct (verify_ndarray_shape_spec sh [Some 3; Some 3]%nat) as [H1 H2].
  destruct (verify_ndarray_shape sh [Some 3; Some 3]%nat) as [[]|e].
  - left. split; [reflexivity|]. pose proof (proj1 H1 eq_refl) as K.
    inversion K as [|? ? ? ? A B]; subst. inversion B as [|? ? ? ? C D]; subst. inversion D. reflexivity.
  - right. split; [apply H2; discriminate|]. intros ->. assert (Ok tt = Err e :> res unit); [|discriminate].
    symmetry. apply H1. repeat constructor.
Qed.

Lemma assign_types_total order : forall t m,
  (Forall (fun z => (- Z.of_nat (List.length m) <= z < Z.of_nat (List.length m))%Z) order -> exists m', assign_types order t m = Ok m') /\
  ((exists z, In z order /\ (z < - Z.of_nat (List.length m) \/ Z.of_nat (List.length m) <= z)%Z) -> assign_types order t m = Err IndexError).
Proof.
  induction order as [|z order IH]; intros t m; cbn [assign_types].
  - split; [eexists; reflexivity|]. intros (z & [] & _).
  - destruct (py_index (List.length m) z) as [k|] eqn:E.
    + destruct (IH (t + 1)%Z (set_nth k t m)) as [I1 I2]. rewrite set_nth_length in I1, I2. split.
      * intros H. inversion H; subst. auto.
      * intros (z' & [<-|Hz] & H); [|apply I2; eauto].
        apply py_index_Some in E. lia.
    + split; [|reflexivity]. intros H. inversion H; subst. apply py_index_None in E. lia.
Qed.

Lemma assign_types_rows order : forall t m m', assign_types order t m = Ok m' -> NoDup order ->
  Forall (fun z => (0 <= z)%Z) order ->
  (forall i z, nth_error order i = Some z -> nth (Z.to_nat z) m' (-1)%Z = (t + Z.of_nat i)%Z) /\
  (forall z, (0 <= z)%Z -> ~ In z order -> nth (Z.to_nat z) m' (-1)%Z = nth (Z.to_nat z) m (-1)%Z) /\
  List.length m' = List.length m.
Proof.
  induction order as [|z0 order IH]; intros t m m' H Hnd Hpos; cbn [assign_types] in H.
  - injection H as <-. split; [intros [|i] z; discriminate|]. split; auto.
  - destruct (py_index (List.length m) z0) as [k|] eqn:E; [|discriminate].
    inversion Hnd as [|? ? N1 N2]; subst. inversion Hpos as [|? ? P1 P2]; subst.
    apply py_index_Some in E. destruct E as (Hk & Ek). assert (k = Z.to_nat z0) by lia. subst k.
    destruct (IH _ _ _ H N2 P2) as (I1 & I2 & I3). rewrite set_nth_length in I3. split; [|split; [|exact I3]].
    + intros [|i] z Hz; cbn in Hz.
      * injection Hz as ->. rewrite I2 by auto. rewrite set_nth_nth by exact Hk. rewrite Nat.eqb_refl. lia.
      * rewrite (I1 _ _ Hz). lia.
    + intros z Hz Hn. rewrite I2; [|exact Hz|intros C; apply Hn; right; exact C].
      rewrite set_nth_nth by exact Hk. destruct (Nat.eqb_spec (Z.to_nat z) (Z.to_nat z0)) as [E|E]; [|reflexivity].
      exfalso. apply Hn. left. lia.
Qed.

Lemma gaussian_new_cases lo hi n : (exists g, (2 <= n)%nat /\ gaussian_new lo hi n = Ok g) \/ ((n < 2)%nat /\ gaussian_new lo hi n = Err IndexError).
Proof.
  destruct n as [|[|n]]; [right|right|left]; cbn.
  - split; [lia|reflexivity].
  - split; [lia|reflexivity].
  - eexists. split; [lia|reflexivity].
Qed.

Section New.
Context (dn : list (nat * nat) -> nat -> triplets) (order : list Z) (w : weights) (cast : R -> R) (lattice : M3)
  (numbers : list Z) (positions : list V3) (cutoff : R) (sn se nm : Z) (gs ge : R) (ms ss : list nat) (mean stddev : M3).
Let new := potgnn_new dn order w cast lattice numbers positions cutoff sn se nm gs ge ms ss mean stddev.

Lemma new_cases : iterates_set order numbers ->
  (~ good_settings cutoff sn se nm gs ge ms ss /\ new = Err ValueError) \/
  (good_settings cutoff sn se nm gs ge ms ss /\
   (((se = 1%Z \/ exists z, In z numbers /\ (z < -119 \/ 118 < z)%Z) /\ new = Err IndexError) \/
    ((2 <= se)%Z /\ Forall (fun z => (-119 <= z <= 118)%Z) numbers /\ exists g, new = Ok g))).
Proof.
  intros (Hnd & Hset). unfold new, potgnn_new, good_settings.
  destruct (Rleb cutoff 0) eqn:E1; [apply Rleb_true in E1; left; split; [lra|reflexivity]|]. apply Rleb_false in E1.
  destruct (Z.leb_spec sn 0); [left; split; [lia|reflexivity]|].
  destruct (Z.leb_spec se 0); [left; split; [lia|reflexivity]|].
  destruct (Z.leb_spec nm 0); [left; split; [lia|reflexivity]|].
  destruct (Rltb gs 0) eqn:E2; [apply Rltb_true in E2; left; split; [lra|reflexivity]|]. apply Rltb_false in E2.
  destruct (Rleb ge gs) eqn:E3; [apply Rleb_true in E3; left; split; [lra|reflexivity]|]. apply Rleb_false in E3.
  destruct (shape33 ms) as [[-> Hm]|[-> Hm]]; [|left; split; [tauto|reflexivity]]. cbn [rbind].
  destruct (shape33 ss) as [[-> Hs]|[-> Hs]]; [|left; split; [tauto|reflexivity]]. cbn [rbind].
  right. split; [repeat split; auto; lra|].
  destruct (radius_graph_pbc _ _ _ _) as [[es us] ds].
  destruct (assign_types_total order 0 (repeat (-1)%Z 119)) as [T1 T2]. rewrite repeat_length in T1, T2.
  change (Z.of_nat 119) with 119%Z in T1, T2.
  destruct (Forall_Exists_dec (fun z => (-119 <= z <= 118)%Z) (fun z => ltac:(destruct (Z_le_dec (-119) z), (Z_le_dec z 118); [left; lia|right; lia|right; lia|right; lia])) numbers) as [F|F].
  - destruct T1 as (m' & T1).
    { apply Forall_forall. intros z Hz. rewrite Forall_forall in F. apply Hset, F in Hz. lia. }
    rewrite T1. cbn [rbind]. destruct (gaussian_new_cases gs ge (Z.to_nat se)) as [(g & G1 & ->)|(G1 & ->)]; cbn [rbind].
    + right. split; [lia|]. split; [exact F|]. eexists. reflexivity.
    + left. split; [left; lia|reflexivity].
  - apply Exists_exists in F as (z & Z1 & Z2). left. rewrite T2.
    + split; [|reflexivity]. right. exists z. split; [exact Z1|lia].
    + exists z. split; [apply Hset, Z1|lia].
Qed.

Lemma f_C84_outcome : iterates_set order numbers ->
  (new = Err ValueError <-> ~ good_settings cutoff sn se nm gs ge ms ss) /\
  (new = Err IndexError <-> good_settings cutoff sn se nm gs ge ms ss /\
     (se = 1%Z \/ exists z, In z numbers /\ (z < -119 \/ 118 < z)%Z)) /\
  ((exists g, new = Ok g) <-> good_settings cutoff sn se nm gs ge ms ss /\ (2 <= se)%Z /\
     Forall (fun z => (-119 <= z <= 118)%Z) numbers).
Proof.
  intros H. destruct (new_cases H) as [[B ->]|[B [[C ->]|[C [D [g ->]]]]]].
  - split; [tauto|]. split; [split; [discriminate|tauto]|]. split; [intros [g E]; discriminate|tauto].
  - split; [split; [discriminate|tauto]|]. split; [tauto|]. split; [intros [g E]; discriminate|].
    intros (_ & S1 & S2). exfalso. destruct C as [->|(z & Z1 & Z2)]; [lia|]. rewrite Forall_forall in S2. specialize (S2 z Z1). lia.
  - split; [split; [discriminate|tauto]|]. split; [|split; [tauto|eauto]]. split; [discriminate|].
    intros (_ & S). exfalso. destruct S as [->|(z & Z1 & Z2)]; [lia|]. rewrite Forall_forall in D. specialize (D z Z1). lia.
Qed.

Lemma f_C84_rows g g' : iterates_set order numbers -> Forall (fun z => (0 <= z <= 118)%Z) numbers ->
  new = Ok g -> List.length (g_embedding g') = List.length order -> g_atom_type_map g' = g_atom_type_map g ->
  (forall i z, nth_error order i = Some z -> exists v, nth_error (g_embedding g') i = Some v /\ embed g' z = Ok v) /\
  (forall z, (0 <= z <= 118)%Z -> ~ In z numbers -> embed g' z = Err IndexError).
Proof.
  intros (Hnd & Hset) Hr H Hlen Hmap. unfold new, potgnn_new in H.
  repeat match type of H with (if ?c then _ else _) = _ => destruct c; [discriminate|] end.
  destruct (verify_ndarray_shape ms _); [|discriminate]. destruct (verify_ndarray_shape ss _); [|discriminate]. cbn [rbind] in H.
  destruct (radius_graph_pbc _ _ _ _) as [[es us] ds].
  destruct (assign_types order 0 (repeat (-1)%Z 119)) as [tm|] eqn:ET; [|discriminate]. cbn [rbind] in H.
  destruct (gaussian_new gs ge (Z.to_nat se)) as [gf|]; [|discriminate]. cbn [rbind] in H. injection H as <-.
  cbn [g_atom_type_map] in Hmap.
  apply assign_types_rows in ET; [|exact Hnd|].
  2: { apply Forall_forall. intros z Hz. rewrite Forall_forall in Hr. apply Hset, Hr in Hz. lia. }
  destruct ET as (R1 & R2 & R3). rewrite repeat_length in R3. unfold embed. rewrite Hmap, R3. split.
  - intros i z Hz. assert (Hz': (0 <= z <= 118)%Z).
    { rewrite Forall_forall in Hr. apply Hr, Hset. eapply nth_error_In; eauto. }
    replace (py_index 119 z) with (Some (Z.to_nat z)) by (symmetry; apply py_index_Some; change (Z.of_nat 119) with 119%Z; lia).
    rewrite (R1 i z Hz). assert (Hi: (i < List.length order)%nat) by (apply nth_error_Some; congruence).
    destruct (Z.ltb_spec (0 + Z.of_nat i) 0); [lia|]. replace (Z.to_nat (0 + Z.of_nat i)) with i by lia.
    destruct (nth_error (g_embedding g') i) as [v|] eqn:E; [eauto|]. apply nth_error_None in E. lia.
  - intros z Hz Hn. replace (py_index 119 z) with (Some (Z.to_nat z)) by (symmetry; apply py_index_Some; change (Z.of_nat 119) with 119%Z; lia).
    rewrite R2 by (try lia; intros C; apply Hn, Hset, C). rewrite nth_repeat. reflexivity.
Qed.
End New.

Lemma f_C84_history dn order w cast lattice numbers positions cutoff sn se nm gs ge ms ss mean stddev g g' :
  potgnn_new dn order w cast lattice numbers positions cutoff sn se nm gs ge ms ss mean stddev = Ok g ->
  List.length positions = List.length numbers -> iterates_set order numbers -> List.length (w_embedding w) = List.length order ->
  triplets_for (List.length numbers) (List.length (g_ref_edges g)) (dn (map (fun '(_, i, j) => (i, j)) (g_ref_edges g)) (List.length numbers)) ->
  Forall (fun z => (0 <= z <= 118)%Z) numbers -> history g g' ->
  (forall i z, nth_error order i = Some z -> exists v, nth_error (g_embedding g') i = Some v /\ embed g' z = Ok v) /\
  (forall z, (0 <= z <= 118)%Z -> ~ In z numbers -> embed g' z = Err IndexError).
Proof.
  intros H Hl Hs Hw HT Hr Hh.
  assert (B: built lattice numbers g).
  { exists dn, order, w, cast, positions, cutoff, sn, se, nm, gs, ge, ms, ss, mean, stddev. auto. }
  destruct (built_ok _ _ _ B) as (Hn & _).
  pose proof (history_same _ _ Hn Hh) as S.
  assert (HE: g_embedding g = w_embedding w).
  { clear - H. unfold potgnn_new in H.
    repeat match type of H with (if ?c then _ else _) = _ => destruct c; [discriminate|] end.
    destruct (verify_ndarray_shape ms _); [|discriminate]. destruct (verify_ndarray_shape ss _); [|discriminate]. cbn [rbind] in H.
    destruct (radius_graph_pbc _ _ _ _) as [[es us] ds].
    destruct (assign_types order 0 (repeat (-1)%Z 119)) as [tm|] eqn:ET; [|discriminate]. cbn [rbind] in H.
    destruct (gaussian_new gs ge (Z.to_nat se)) as [gf|]; [|discriminate]. cbn [rbind] in H. injection H as <-. reflexivity. }
  unfold same_net in S.
  eapply f_C84_rows; [exact Hs|exact Hr|exact H| |]; [|].
  - transitivity (List.length (g_embedding g)); [|congruence]. intuition congruence.
  - intuition congruence.
Qed.

(** The structure of the examples *)
From Verif Require Import P_Examples10.
Lemma ex_iterates : iterates_set [1; 8]%Z ex_numbers.
Proof. split; [repeat constructor; cbn; intuition discriminate|]. intros z. unfold ex_numbers. cbn. intuition. Qed.
Lemma ex_numbers_range : Forall (fun z => (0 <= z <= 118)%Z) ex_numbers.
Proof. unfold ex_numbers. repeat constructor; discriminate. Qed.
Lemma ex_good_settings : good_settings (3/10) 5 4 2 0 5 [3; 3]%nat [3; 3]%nat.
Proof. unfold good_settings. repeat split; try lra; reflexivity. Qed.

(** ** The distance filter *)
Lemma forward_gaussian g lattice numbers n ps : g_gaussian (fst (forward g lattice numbers n ps)) = g_gaussian g.
Proof. destruct (forward_state g lattice numbers n ps) as [-> | ->]; reflexivity. Qed.
Lemma predict_gaussian cast subs : forall g start acc, g_gaussian (fst (predict cast g subs start acc)) = g_gaussian g.
Proof.
  induction subs as [|sub subs IH]; intros g start acc; [reflexivity|]. cbn [predict].
  match goal with |- context [forward g ?a ?b ?c ?d] => pose proof (forward_gaussian g a b c d) as HF; destruct (forward g a b c d) as [g' [p|er]] end; cbn [fst] in *; [|exact HF].
  rewrite IH. exact HF.
Qed.
Lemma history_gaussian g0 g : history g0 g -> g_gaussian g = g_gaussian g0.
Proof.
  induction 1 as [|g w tr _ IH Hw|g lat zs n ps _ IH|g cast sh ps _ IH].
  - reflexivity.
  - exact IH.
  - rewrite forward_gaussian. exact IH.
  - rewrite <- IH. unfold calc_polarizabilities. destruct (verify_ndarray_shape _ _); [|reflexivity]. destruct (batch_positions _ _ _); [|reflexivity].
    match goal with |- context [predict cast ?a ?b ?c ?d] => pose proof (predict_gaussian cast b a c d) as HP; destruct (predict cast a b c d) end. exact HP.
Qed.
Lemma f_C84_filter dn order w cast lattice numbers positions cutoff sn se nm gs ge ms ss mean stddev g g' :
  potgnn_new dn order w cast lattice numbers positions cutoff sn se nm gs ge ms ss mean stddev = Ok g -> history g g' ->
  exists step, 0 < step /\ gs + IZR (se - 1) * step = ge /\
    forall distances, Forall2 (fun d row => List.length row = Z.to_nat se /\
      forall k, (k < Z.to_nat se)%nat -> nth_error row k = Some (exp (- ((d - (gs + INR k * step)) / step) ^ 2 / 2)))
      distances (apply_gaussian (g_gaussian g') distances).
Proof.
  intros H Hh. rewrite (history_gaussian _ _ Hh). clear Hh.
  unfold potgnn_new in H.
  destruct (Rleb cutoff 0); [discriminate|]. destruct (Z.leb sn 0); [discriminate|].
  destruct (Z.leb_spec se 0); [discriminate|]. destruct (Z.leb nm 0); [discriminate|]. destruct (Rltb gs 0); [discriminate|].
  destruct (Rleb ge gs) eqn:Eg; [discriminate|].
  destruct (verify_ndarray_shape ms _); [|discriminate]. cbn [rbind] in H. destruct (verify_ndarray_shape ss _); [|discriminate]. cbn [rbind] in H.
  destruct (radius_graph_pbc _ _ _ _) as [[re ?] ?]. destruct (assign_types _ _ _); [|discriminate]. cbn [rbind] in H.
  destruct (gaussian_new gs ge (Z.to_nat se)) as [gf|] eqn:G; [|discriminate]. cbn [rbind] in H. injection H as <-. cbn [g_gaussian].
  assert (L : gs < ge) by (unfold Rleb in Eg; destruct (Rle_dec ge gs); [discriminate|lra]). clear Eg.
  assert (E : IZR (se - 1) = INR (Z.to_nat se - 1)) by (rewrite INR_IZR_INZ; f_equal; lia).
  rewrite E. clear E.
  destruct (Z.to_nat se) as [|[|n]]; try discriminate.
  assert (P : 0 < INR (n + 1)) by (apply lt_0_INR; lia).
  exists ((ge - gs) / INR (n + 1)). assert (S0 : 0 < (ge - gs) / INR (n + 1)) by (apply Rdiv_lt_0_compat; lra).
  split; [exact S0|]. replace (S (S n) - 1)%nat with (n + 1)%nat in * by lia. split; [field; lra|].
  set (st := (ge - gs) / INR (n + 1)) in *.
  assert (Gf : gf = mkGaussian (- / 2 / st ^ 2) (map (fun k => gs + INR k * st) (seq 0 (S (S n))))).
  { unfold gaussian_new, linspace in G. replace (S (S n) - 1)%nat with (n + 1)%nat in G by lia. cbn [seq map] in G.
    injection G as <-. f_equal. f_equal. f_equal. fold st. change (INR 1) with 1. change (INR 0) with 0. lra. }
  rewrite Gf. intros ds. unfold apply_gaussian. cbn [gf_coefficient gf_offset]. induction ds as [|d ds IH]; constructor; [|exact IH].
  rewrite !map_length, seq_length. split; [reflexivity|]. intros k Hk. rewrite map_map.
  rewrite nth_error_map. rewrite (nth_error_nth' _ 0%nat) by (rewrite seq_length; exact Hk). rewrite seq_nth by exact Hk. cbn [option_map]. do 2 f_equal.
  cbn [plus]. field. lra.
Qed.
