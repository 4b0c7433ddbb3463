(** Proofs about training: what the results are worth *)
From Coq Require Import ZArith Reals Bool Arith List Lia Lra Permutation.
From Verif Require Import Base LinAlg M_Validate M_StructUtils S_Lattice P_StructUtils M_Torch S_Torch P_Torch P_Torch2 M_Gnn S_Gnn P_Gnn P_Gnn2 P_Gnn3 P_Gnn4 M_Train S_Train P_Train P_Train2.
Import ListNotations.
Local Open Scope R_scope.

(** ** Outputs *)
Lemma apply_length g b out : snd (apply_model g b) = Ok out -> List.length out = List.length b.
Proof.
  intros HO. apply apply_snd in HO. revert HO.
  unfold forward_batch, forward. destruct (batch_graph _ _ _ _) as [[ei uv] di]. destruct (mapM _ (concat _)) as [ne|]; [|discriminate].
  destruct (get_triplets _ _) as [s r]. cbn [snd]. destruct r as [t|]; [|discriminate]. cbn [rbind]. destruct (message_passing _ _ _ _ _) as [a c]. destruct (mapM _ (combine _ _)) as [p|]; [|discriminate].
  cbn [rbind]. intros H. injection H as <-. rewrite !map_length, seq_length. reflexivity.
Qed.
Lemma forward_ok g b L : net_ok g -> goes_with (g_atomic_numbers g) L b -> b <> [] -> exists out, snd (forward_batch g b) = Ok out.
Proof.
  intros (HC & HN & HE & HR & HT) HG Hb. unfold forward_batch, forward. destruct (batch_graph _ _ _ _) as [[ei uv] di].
  destruct (embed_ok g HT) as [ne HM].
  assert (EM : mapM (node_embedding g) (concat (map s_numbers b)) = Ok (concat (repeat ne (List.length b)))).
  { clear - HM HG. induction HG as [|s b (_ & E & _) _ IH]; [reflexivity|]. cbn [map concat List.length repeat]. rewrite mapM_app, E, HM, IH. reflexivity. }
  rewrite EM, map_length. destruct (get_triplets_eq (g_triplets g) (Z.of_nat (List.length b)) HC) as (ET & _).
  destruct (get_triplets (g_triplets g) (Z.of_nat (List.length b))) as [s r]. cbn [snd] in *. rewrite ET.
  destruct (Z.leb_spec (Z.of_nat (List.length b)) 0); [destruct b; [contradiction|cbn in *; lia]|]. cbn [rbind]. destruct (message_passing _ _ _ _ _) as [a c].
  rewrite (mapM_all_ok _ (fun '(x, u) => epv x u)) by (intros [x u] _; apply epv_ok). cbn [rbind]. eexists. reflexivity.
Qed.
(** Unless the batch norm gets a single row *)
Lemma apply_ok g b L : net_ok g -> goes_with (g_atomic_numbers g) L b -> b <> [] ->
  (exists out, snd (apply_model g b) = Ok out /\ ~ (g_training g = true /\ List.length b = 1%nat /\ List.length (g_ref_edges g) = 1%nat)) \/
  (snd (apply_model g b) = Err ValueError /\ g_training g = true /\ List.length b = 1%nat /\ List.length (g_ref_edges g) = 1%nat).
Proof.
  intros HG HW Hb. destruct (forward_ok g b L HG HW Hb) as (out & E). unfold apply_model. destruct (forward_batch g b) as [g' r]. cbn [snd] in *. subst r. cbn [rbind].
  destruct (g_training g); cbn [andb]; [|left; exists out; split; [reflexivity|intros (X & _); discriminate]].
  destruct (Nat.eqb_spec (List.length b * List.length (g_ref_edges g)) 1) as [E1 | N1].
  - right. apply Nat.eq_mul_1 in E1. tauto.
  - left. exists out. split; [reflexivity|]. intros (_ & A & B). apply N1. rewrite A, B. reflexivity.
Qed.
Lemma lattices_repeat {A B} (f : A -> B) x (l : list A) : Forall (fun a => f a = x) l -> map f l = repeat x (List.length l).
Proof. induction 1; cbn; congruence. Qed.
Lemma apply_finite g b out : net_ok g -> g_training g = false -> goes_with (g_atomic_numbers g) (g_lattice g) b -> b <> [] -> mdet (g_lattice g) <> 0 -> g_ref_edges g <> [] ->
  Forall (fun s => apart (fun x => x) (List.length (g_atomic_numbers g)) (s_positions s)) b -> snd (apply_model g b) = Ok out -> exists rows, out = map Some rows.
Proof.
  intros HG Ht HW Hb HD HE HA H. pose proof HG as (HC & HN & HEd & HR & HT). destruct (embed_ok g HT) as [ne HM].
  rewrite (apply_eval g b Ht) in H. unfold forward_batch in H.
  rewrite (lattices_repeat s_lattice (g_lattice g)) in H by (eapply Forall_impl; [|exact HW]; cbv beta; tauto).
  rewrite (lattices_repeat s_numbers (g_atomic_numbers g)) in H by (eapply Forall_impl; [|exact HW]; cbv beta; tauto).
  assert (E1 : match b with [] => 0%nat | x :: _ => List.length (s_positions x) end = List.length (g_atomic_numbers g)). { destruct HW as [|s l (_ & _ & E) _]; [contradiction|exact E]. }
  rewrite E1 in H. rewrite <- (map_length s_positions b) in H.
  rewrite (forward_result g (g_lattice g) ne HC HN HEd HM Ht) in H by (destruct b; [contradiction|discriminate]). cbn [snd] in H. injection H as <-.
  assert (HP : Forall (fun q => all_some (sample_pols g (g_lattice g) ne q) <> None) (map s_positions b)).
  { apply Forall_map. eapply Forall_impl; [|exact HA]. cbv beta. intros s Hs. pose proof (good_sample (fun x => x) g ne (s_positions s) HG HM) as GS. rewrite cast_m_id, map_vmap_id in GS. apply GS; assumption. }
  rewrite sub_good by exact HP.
  assert (HF : Forall (fun p => sample_result g (g_lattice g) ne p <> None) (map s_positions b)).
  { eapply Forall_impl; [|exact HP]. intros p Hp. pose proof (answer_finite (fun x => x) g ne p HE) as AF.
    assert (EG : eval_mode g = g) by (destruct g; cbn in Ht; subst; reflexivity).
    rewrite EG, cast_m_id, map_vmap_id in AF. specialize (AF Hp). intros E. apply AF. unfold answer. rewrite EG, cast_m_id, map_vmap_id, E. reflexivity. }
  clear - HF. induction HF as [|p ps Hp _ IH]; [exists []; reflexivity|]. destruct IH as (rows & E). destruct (sample_result g (g_lattice g) ne p) as [v|] eqn:Ev; [|contradiction]. exists (v :: rows). cbn. rewrite Ev, E. reflexivity.
Qed.
Lemma goes_incl numbers L l m : goes_with numbers L l -> incl m l -> goes_with numbers L m.
Proof. unfold goes_with. rewrite !Forall_forall. auto. Qed.
Lemma cut_incl {A} k (l : list A) bs b : cut_in k l bs -> In b bs -> incl b l.
Proof. intros (H & _) Hb x Hx. rewrite <- H. apply in_concat. exists b. split; assumption. Qed.

Section Worth.
Context {O : Type} (e : env O) (shuffle : list sample -> list sample) (lattice : M3) (numbers : list Z) (g0 : potgnn) (st : trainer O) (tset vset : list sample) (bs : Z).
Context (HB : built lattice numbers g0) (HH : history g0 (tr_model st)) (HK : keeps_sizes e) (HS : forall l, Permutation (shuffle l) l)
  (HN : forall g b, List.length (e_gradient e g b) = List.length (tr_grad st)).

(** Which batches hold a single sample *)
Lemma single_batch (batches : list (list sample)) l : cut_in (Z.to_nat bs) l batches -> l <> [] -> (0 < bs)%Z ->
  ((exists b, In b batches /\ List.length b = 1%nat) <-> single_sample_batch (List.length l) bs).
Proof.
  intros HC Hl Hb. unfold single_sample_batch. destruct (cut_last _ _ _ HC Hl) as (front & last & -> & HF & Hla & Hn). rewrite Forall_forall in HF.
  assert (En : Z.of_nat (List.length l) = (Z.of_nat (List.length last) + Z.of_nat (List.length front) * bs)%Z) by (rewrite Hn; lia).
  assert (Em : (Z.of_nat (List.length l) mod bs = Z.of_nat (List.length last) mod bs)%Z) by (rewrite En; apply Z.mod_add; lia).
  rewrite Em. split.
  - intros (b & Hi & H1). apply in_app_or in Hi. destruct Hi as [Hi | [<- | []]]; [left; specialize (HF b Hi); lia|].
    destruct (Z.eq_dec bs 1) as [E | N]; [left; exact E|right]. rewrite H1. apply Z.mod_small. lia.
  - intros H. exists last. split; [apply in_or_app; right; left; reflexivity|]. destruct H as [H | H]; [lia|].
    destruct (Z.eq_dec (Z.of_nat (List.length last)) bs) as [E | N]; [rewrite E, Z_mod_same_full in H; discriminate|]. rewrite Z.mod_small in H; lia.
Qed.
Lemma steps_each stale g o batches g' o' ls b : net_ok g0 -> history g0 g -> g_training g = true -> steps e stale g o batches g' o' ls -> In b batches ->
  exists g1 out, history g0 g1 /\ g_training g1 = true /\ snd (apply_model g1 b) = Ok out.
Proof.
  intros H0 Hg Ht H Hb. induction H as [|stale g o b0 out w' o' bs0 g' o'' ls H1 H2 H3 IH]; [contradiction|].
  destruct Hb as [<- | Hb]; [eauto|]. apply IH; [|reflexivity|exact Hb].
  apply h_weights; [rewrite apply_fst; apply h_forward, Hg|]. pose proof (HK (put_batch_norm (weights_of g) (e_track e g b0)) o (vplus stale (e_gradient e g b0))) as HL. rewrite H2 in HL. cbn in HL. rewrite HL.
  destruct (history_same g0 g H0 Hg) as (_ & _ & _ & _ & _ & _ & _ & HE & _). exact HE.
Qed.
Lemma f_C82_cases L L' : goes_with numbers L tset -> goes_with numbers L' vset -> tset <> [] -> vset <> [] -> (0 < bs)%Z ->
  let single := List.length (g_ref_edges g0) = 1%nat /\ single_sample_batch (List.length tset) bs in
  (~ single /\ exists st' v, train_single_epoch e shuffle st tset vset bs = (st', Ok v)) \/
  (single /\ exists st', train_single_epoch e shuffle st tset vset bs = (st', Err ValueError)).
Proof.
  intros HT HV Ht Hv Hb single. assert (H0 : net_ok g0) by apply (built_ok _ _ _ HB).
  assert (EL : List.length (shuffle tset) = List.length tset) by (apply Permutation_length, HS).
  assert (Hsh : shuffle tset <> []) by (intros E; rewrite E in EL; destruct tset; [contradiction|discriminate]).
  destruct (train_single_epoch e shuffle st tset vset bs) as [st' [v|x]] eqn:E.
  - left. split; [|eauto]. intros (S1 & S2). destruct v as [[tl vl] vv].
    destruct (f_C82_epoch e shuffle lattice numbers g0 st tset vset bs HB HH HK HS HN _ _ _ _ E) as (batches & g & losses & blocks & outs & HC & HST & _).
    rewrite <- EL in S2. apply (proj2 (single_batch batches (shuffle tset) HC Hsh Hb)) in S2. destruct S2 as (b & Hin & H1).
    destruct (steps_each _ _ _ _ _ _ _ b H0 (mode_history g0 (tr_model st) true H0 HH) eq_refl HST Hin) as (g1 & out & Hg1 & T1 & EO).
    destruct (reachable _ _ _ _ HB Hg1) as (HG & _ & EN & ER & _).
    destruct (apply_ok g1 b L HG) as [(o & _ & N) | (EE & _)].
    + rewrite EN. apply (goes_incl _ _ _ _ HT). intros y Hy. apply (Permutation_in _ (HS tset)). apply (cut_incl _ _ _ _ HC Hin), Hy.
    + intros ->. discriminate.
    + apply N. rewrite ER. auto.
    + rewrite EE in EO. discriminate.
  - right. destruct (f_C82_interrupted e shuffle lattice numbers g0 st tset vset bs HB HH HK HN _ _ E Ht Hv Hb) as (batches & g & ls & HC & [(front & b & rest & -> & HST & HA) | (HST & U & b & Hbe & Hi & HA)]).
    + assert (H1 : history g0 g) by (eapply steps_history; [exact HK|exact HST|exact H0|apply mode_history; assumption]). destruct (reachable _ _ _ _ HB H1) as (HG & _ & EN & ER & _).
      assert (Hin : In b (front ++ b :: rest)) by (apply in_or_app; right; left; reflexivity).
      destruct (apply_ok g b L HG) as [(o & EE & _) | (EE & _ & L1 & R1)].
      * rewrite EN. apply (goes_incl _ _ _ _ HT). intros y Hy. apply (Permutation_in _ (HS tset)). apply (cut_incl _ _ _ _ HC Hin), Hy.
      * destruct HC as (_ & HC & _). specialize (HC b Hin). intros ->. cbn in HC. lia.
      * rewrite HA in EE. discriminate.
      * rewrite HA in EE. cbn in EE. injection EE as ->. split; [|eauto]. split; [rewrite <- ER; exact R1|]. rewrite <- EL. apply (single_batch _ _ HC Hsh Hb). eauto.
    + assert (H1 : history g0 (set_mode g false)). { apply mode_history; [exact H0|]. eapply steps_history; [exact HK|exact HST|exact H0|apply mode_history; assumption]. } destruct (reachable _ _ _ _ HB H1) as (HG & _ & EN & _).
      destruct (apply_ok (set_mode g false) b L' HG) as [(out & EO & _) | (_ & T & _)]; [rewrite EN; apply (goes_incl _ _ _ _ HV Hi)|exact Hbe| |discriminate T]. rewrite HA in EO. discriminate.
Qed.
Lemma f_C82_total L L' : goes_with numbers L tset -> goes_with numbers L' vset -> tset <> [] -> vset <> [] -> (0 < bs)%Z ->
  ~ (List.length (g_ref_edges g0) = 1%nat /\ single_sample_batch (List.length tset) bs) ->
  exists st' v, train_single_epoch e shuffle st tset vset bs = (st', Ok v).
Proof. intros HT HV Ht Hv Hb N. destruct (f_C82_cases L L' HT HV Ht Hv Hb) as [(_ & H) | (S & _)]; [exact H|contradiction]. Qed.
Lemma f_C82_single L L' : goes_with numbers L tset -> goes_with numbers L' vset -> tset <> [] -> vset <> [] -> (0 < bs)%Z ->
  List.length (g_ref_edges g0) = 1%nat -> single_sample_batch (List.length tset) bs ->
  exists st', train_single_epoch e shuffle st tset vset bs = (st', Err ValueError).
Proof. intros HT HV Ht Hv Hb A B. destruct (f_C82_cases L L' HT HV Ht Hv Hb) as [(N & _) | (_ & H)]; [exfalso; apply N; split; assumption|exact H]. Qed.

(** Which blocks hold a single sample *)
Lemma single_block (blocks : list (list sample)) : cut_in (Nat.min 100 (List.length vset)) vset blocks -> vset <> [] -> ((exists b, In b blocks /\ List.length b = 1%nat) <-> (List.length vset mod 100 = 1)%nat).
Proof.
  intros HC Hv. destruct (cut_last _ _ _ HC Hv) as (front & last & -> & HF & Hl & Hn).
  assert (Hpos : (0 < List.length vset)%nat) by (destruct vset; [contradiction|cbn; lia]).
  assert (D : (List.length front = 0 /\ List.length last = List.length vset /\ List.length vset <= 100)%nat \/ (Nat.min 100 (List.length vset) = 100)%nat).
  { destruct (Nat.le_gt_cases 100 (List.length vset)) as [L | L]; [right; apply Nat.min_l, L|left]. rewrite Nat.min_r in * by lia. destruct front as [|f fs]; [cbn in *; lia|]. cbn [List.length] in Hn. nia. }
  split.
  - intros (b & Hb & H1). destruct D as [(D1 & D2 & D3) | D].
    + destruct front; [|discriminate]. destruct Hb as [<- | []]. rewrite <- D2, H1. reflexivity.
    + rewrite D in *. apply in_app_or in Hb. destruct Hb as [Hb | [<- | []]].
      * rewrite Forall_forall in HF. rewrite (HF b Hb) in H1. discriminate.
      * rewrite Hn, H1, Nat.add_comm, Nat.mod_add by lia. reflexivity.
  - intros H. exists last. split; [apply in_or_app; right; left; reflexivity|]. destruct D as [(D1 & D2 & D3) | D].
    + rewrite D2. destruct (Nat.eq_dec (List.length vset) 100) as [E | E]; [rewrite E in H; discriminate|]. rewrite Nat.mod_small in H by lia. exact H.
    + rewrite D in *. rewrite Hn, Nat.add_comm, Nat.mod_add in H by lia. destruct (Nat.eq_dec (List.length last) 100) as [E | E]; [rewrite E in H; discriminate|]. rewrite Nat.mod_small in H by lia. exact H.
Qed.
Lemma f2_in_l {A B} (P : A -> B -> Prop) l m a : Forall2 P l m -> In a l -> exists b, In b m /\ P a b.
Proof. induction 1 as [|x y l m H _ IH]; intros HI; [contradiction|]. destruct HI as [-> | HI]; [exists y; split; [left; reflexivity|exact H]|]. destruct (IH HI) as (b & Hb & HP). exists b. split; [right; exact Hb|exact HP]. Qed.
Lemma f2_in_r {A B} (P : A -> B -> Prop) l m b : Forall2 P l m -> In b m -> exists a, In a l /\ P a b.
Proof. induction 1 as [|x y l m H _ IH]; intros HI; [contradiction|]. destruct HI as [-> | HI]; [exists x; split; [left; reflexivity|exact H]|]. destruct (IH HI) as (a & Ha & HP). exists a. split; [right; exact Ha|exact HP]. Qed.
Lemma nan_average l v : averages l v -> In None l -> v = None.
Proof. intros H HI. eapply averages_fun; [exact H|]. apply av_nan, HI. Qed.
Lemma f_C82_variance_nan st' tl vl vv : train_single_epoch e shuffle st tset vset bs = (st', Ok (tl, vl, vv)) -> (List.length vset mod 100 = 1)%nat -> vv = repeat None 6.
Proof.
  intros H Hm. destruct (f_C82_epoch e shuffle lattice numbers g0 st tset vset bs HB HH HK HS HN _ _ _ _ H) as (batches & g & losses & blocks & outs & _ & _ & _ & _ & _ & _ & HC & HO & _ & HL & HV).
  destruct (args_ok e shuffle st tset vset bs _ _ H) as (_ & Hv & _).
  apply (proj2 (single_block blocks HC Hv)) in Hm. destruct Hm as (b & Hb & H1). destruct (f2_in_l _ _ _ _ HO Hb) as (out & Hout & Eo). apply apply_length in Eo.
  apply (nth_ext _ _ None None); [rewrite HL; reflexivity|]. intros c Hc. rewrite HL in Hc. rewrite nth_repeat. destruct (HV c Hc) as (vs & HVs & HA). apply (nan_average _ _ HA).
  destruct (f2_in_l _ _ _ _ HVs Hout) as (v & Hvin & [(rows & -> & H2 & _) | (_ & ->)]); [|exact Hvin]. exfalso. rewrite map_length in Eo. unfold vec in *. lia.
Qed.
Lemma f_C82_variance_finite st' tl vl vv : train_single_epoch e shuffle st tset vset bs = (st', Ok (tl, vl, vv)) -> (List.length vset mod 100 <> 1)%nat ->
  goes_with numbers lattice vset -> mdet lattice <> 0 -> g_ref_edges g0 <> [] -> Forall (fun s => apart (fun x => x) (List.length numbers) (s_positions s)) vset ->
  Forall (fun v => v <> None) vv.
Proof.
  intros H Hm HW HD HE HA. destruct (f_C82_epoch e shuffle lattice numbers g0 st tset vset bs HB HH HK HS HN _ _ _ _ H) as (batches & g & losses & blocks & outs & _ & HST & _ & U & HT & _ & HC & HO & _ & HL & HV).
  destruct (args_ok e shuffle st tset vset bs _ _ H) as (_ & Hv & _). assert (H0 : net_ok g0) by apply (built_ok _ _ _ HB).
  assert (H1 : history g0 (tr_model st')). { assert (HG : history g0 (set_mode g false)). { apply mode_history; [exact H0|]. eapply steps_history; [exact HK|exact HST|exact H0|apply mode_history; assumption]. }
    clear - U HG H0. remember (set_mode g false) as g1. induction U; [subst; exact HG|apply mode_history; auto|apply h_forward; auto|apply h_calc; auto]. }
  destruct (reachable _ _ _ _ HB H1) as (HN' & EL & EN & ER & _). rewrite <- EN, <- EL in *. rewrite <- ER in HE.
  apply Forall_forall. intros v Hvin. apply (In_nth _ _ None) in Hvin. destruct Hvin as (c & Hc & <-). rewrite HL in Hc. destruct (HV c Hc) as (vs & HVs & HAv).
  destruct HAv as [l Hl | l Hl]; [discriminate|]. exfalso. destruct (f2_in_r _ _ _ _ HVs Hl) as (out & Ho & HSp). destruct (f2_in_r _ _ _ _ HO Ho) as (b & Hb & Eb).
  assert (Hlen : (1 <= List.length b)%nat) by (destruct HC as (_ & HC & _); apply HC, Hb).
  destruct (apply_finite _ b out HN' HT (goes_incl _ _ _ _ HW (cut_incl _ _ _ _ HC Hb))) as (rows & ->); [intros ->; cbn in Hlen; lia|exact HD|exact HE| |exact Eb|].
  - rewrite Forall_forall in *. intros s Hs. apply HA. apply (cut_incl _ _ _ _ HC Hb), Hs.
  - destruct HSp as [(r & _ & _ & E) | ([HI | HI] & _)]; [discriminate| |].
    + apply in_map_iff in HI. destruct HI as (? & ? & _). discriminate.
    + apply apply_length in Eb. apply Hm, (proj1 (single_block blocks HC Hv)). exists b. split; [exact Hb|]. lia.
Qed.

(** ** Losses *)
Lemma map2_app {A B C} (f : A -> B -> C) l1 l2 m1 m2 : List.length l1 = List.length m1 -> map2 f (l1 ++ l2) (m1 ++ m2) = map2 f l1 m1 ++ map2 f l2 m2.
Proof. revert m1. induction l1 as [|x l1 IH]; intros [|y m1] H; try discriminate; [reflexivity|]. cbn. f_equal. apply IH. cbn in H. lia. Qed.
Lemma f_C82_mean per_sample st' tl vl vv : mean_loss e per_sample -> train_single_epoch e shuffle st tset vset bs = (st', Ok (tl, vl, vv)) ->
  (List.length vset <= 100)%nat \/ (List.length vset mod 100 = 0)%nat ->
  exists blocks outs, cut_in (Nat.min 100 (List.length vset)) vset blocks /\ Forall2 (fun b out => snd (apply_model (tr_model st') b) = Ok out) blocks outs /\
    vl = Some (fold_right Rplus 0 (map2 per_sample (concat outs) (map s_target vset)) / INR (List.length vset)).
Proof.
  intros HM H Hd. destruct (f_C82_epoch e shuffle lattice numbers g0 st tset vset bs HB HH HK HS HN _ _ _ _ H) as (batches & g & losses & blocks & outs & _ & _ & _ & _ & _ & _ & HC & HO & HA & _).
  destruct (args_ok e shuffle st tset vset bs _ _ H) as (_ & Hv & _). exists blocks, outs. split; [exact HC|]. split; [exact HO|].
  set (k := Nat.min 100 (List.length vset)) in *.
  assert (HF : Forall (fun b => List.length b = k) blocks /\ (List.length vset = List.length blocks * k)%nat /\ (0 < k)%nat /\ blocks <> []).
  { destruct (cut_last _ _ _ HC Hv) as (front & last & -> & HF & Hl & Hn). assert (EL : List.length last = k).
    { subst k. destruct (Nat.le_gt_cases (List.length vset) 100) as [L | L].
      - rewrite Nat.min_r in * by lia. destruct front as [|f fs]; [cbn in Hn; lia|]. cbn [List.length] in Hn. nia.
      - rewrite Nat.min_l in * by lia. destruct Hd as [Hd | Hd]; [lia|]. rewrite Hn, Nat.add_comm, Nat.mod_add in Hd by lia.
        destruct (Nat.eq_dec (List.length last) 100) as [E | E]; [exact E|]. rewrite Nat.mod_small in Hd by lia. lia. }
    split; [apply Forall_app; split; [exact HF|constructor; [exact EL|constructor]]|]. split; [rewrite app_length; cbn [List.length]; nia|]. split; [subst k; lia|]. intros E. apply app_eq_nil in E. destruct E; discriminate. }
  destruct HF as (HF & Hlen & Hk & Hbe). clearbody k.
  assert (HL2 : Forall2 (fun b out => List.length b = k /\ List.length out = k) blocks outs). { clear - HF HO. induction HO as [|b out bl ol Hb _ IH]; [constructor|]. inversion HF as [|? ? HF1 HF2]. constructor; [split; [assumption|]|apply IH; assumption]. apply apply_length in Hb. congruence. }
  assert (EV : map2 (fun out b => e_loss e out (map s_target b)) outs blocks = map Some (map2 (fun out b => fold_right Rplus 0 (map2 per_sample out (map s_target b)) / INR k) outs blocks)).
  { clear - HL2 HM Hk. induction HL2 as [|b out bl ol (Hb & Ho) _ IH]; [reflexivity|]. cbn [map2 map]. rewrite IH, HM; [rewrite Ho; reflexivity|rewrite map_length; congruence|intros E; rewrite E in Ho; change (0%nat = k) in Ho; lia]. }
  rewrite EV in HA. assert (HNE : map2 (fun out b => fold_right Rplus 0 (map2 per_sample out (map s_target b)) / INR k) outs blocks <> []) by (destruct HL2; [contradiction|discriminate]).
  rewrite (averages_fun _ _ _ HA (av_some _ HNE)). f_equal.
  assert (E1 : List.length (map2 (fun out b => fold_right Rplus 0 (map2 per_sample out (map s_target b)) / INR k) outs blocks) = List.length blocks). { clear - HL2. induction HL2; cbn; congruence. }
  rewrite E1, Hlen, mult_INR.
  assert (E2 : fold_right Rplus 0 (map2 per_sample (concat outs) (map s_target vset)) = INR k * fold_right Rplus 0 (map2 (fun out b => fold_right Rplus 0 (map2 per_sample out (map s_target b)) / INR k) outs blocks)).
  { rewrite <- (proj1 HC). clear - HL2 Hk. induction HL2 as [|b out bl ol (Hb & Ho) _ IH]; [cbn; ring|]. cbn [map2 concat fold_right]. rewrite map_app, map2_app by (rewrite map_length; congruence).
    assert (T : forall a b, fold_right Rplus 0 (a ++ b) = fold_right Rplus 0 a + fold_right Rplus 0 b) by (clear; induction a; intros; cbn; [ring|rewrite IHa; ring]).
    rewrite T, IH. field. apply not_0_INR. lia. }
  rewrite E2. field. split; apply not_0_INR; [lia|]. destruct blocks; [contradiction|discriminate].
Qed.
End Worth.
