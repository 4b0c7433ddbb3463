(** PotGNN: predictions *)
From Coq Require Import ZArith Reals Bool Arith List Lia Lra.
From Verif Require Import Base LinAlg M_Validate M_StructUtils S_Lattice P_StructUtils M_Torch S_Torch P_Torch P_Torch2 M_Gnn S_Gnn P_Gnn P_Gnn2 P_Gnn3.
Import ListNotations.
Local Open Scope R_scope.

Lemma reachable lattice numbers g0 g : built lattice numbers g0 -> history g0 g ->
  net_ok g /\ g_lattice g = lattice /\ g_atomic_numbers g = numbers /\ g_ref_edges g = g_ref_edges g0 /\ exists ne, mapM (node_embedding g) (g_atomic_numbers g) = Ok ne.
Proof.
  intros HB HH. destruct (built_ok _ _ _ HB) as (H0 & EL & EN). pose proof (history_same g0 g H0 HH) as HS. pose proof (same_net_ok g0 g H0 HS) as HG.
  destruct HS as (S1 & S2 & _ & _ & S5 & _). split; [exact HG|]. split; [congruence|]. split; [congruence|]. split; [exact S5|]. apply embed_ok, HG.
Qed.
Lemma calc_shape cast g shape ps : (forall n, shape <> [n; List.length (g_atomic_numbers g); 3%nat]) -> calc_polarizabilities cast g shape ps = (g, Err ValueError).
Proof.
  intros H. unfold calc_polarizabilities. destruct (verify_ndarray_shape shape _) as [u|er] eqn:E.
  - exfalso. unfold verify_ndarray_shape in E. destruct shape as [|a [|b [|c [|]]]]; cbn in E; try discriminate.
    destruct (Nat.eqb_spec b (List.length (g_atomic_numbers g))) as [-> | N]; [|discriminate]. destruct c as [|[|[|[|c]]]]; cbn in E; try discriminate. apply (H a). reflexivity.
  - unfold verify_ndarray_shape in E. f_equal. repeat match type of E with (if ?c then _ else _) = _ => destruct c end; congruence.
Qed.
Lemma map_concat_map {A B} (f : A -> B) (ls : list (list A)) : concat (map (map f) ls) = map f (concat ls).
Proof. symmetry. apply concat_map. Qed.
Definition answer (cast : R -> R) (g : potgnn) (ne : list vec) (p : list V3) : option M3 :=
  finish g (option_map to_tensor (sample_result (eval_mode g) (cast_m cast (g_lattice g)) ne (map (vmap cast) p))).
Definition chops (ps : list (list V3)) : list (list (list V3)) := map (chop 100 ps) (seq 0 ((List.length ps + 99) / 100)).
Lemma ceil_100 n : (n <= ((n + 99) / 100) * 100)%nat.
Proof. pose proof (ceil_spec n 100 ltac:(lia)) as [H1 _]. replace (n + 100 - 1)%nat with (n + 99)%nat in H1 by lia. exact H1. Qed.
Lemma chops_concat ps : concat (chops ps) = ps.
Proof. unfold chops. rewrite chop_concat; [reflexivity|lia|]. pose proof (ceil_100 (List.length ps)). lia. Qed.
Lemma in_chops ps sub p : In sub (chops ps) -> In p sub -> In p ps.
Proof. intros H1 H2. rewrite <- (chops_concat ps). apply in_concat. exists sub. split; assumption. Qed.
Lemma calc_good cast g ne ps : net_ok g -> mapM (node_embedding g) (g_atomic_numbers g) = Ok ne ->
  Forall (fun p => all_some (sample_pols (eval_mode g) (cast_m cast (g_lattice g)) ne (map (vmap cast) p)) <> None) ps ->
  snd (calc_polarizabilities cast g [List.length ps; List.length (g_atomic_numbers g); 3%nat] ps) = Ok (map (answer cast g ne) ps).
Proof.
  intros HG HM HA. rewrite (calc_eq cast g ps ne HG HM). f_equal. fold (chops ps).
  transitivity (concat (map (map (answer cast g ne)) (chops ps))); [|rewrite map_concat_map, chops_concat; reflexivity].
  f_equal. apply map_ext_in. intros sub Hsub. unfold block. change (g_lattice (eval_mode g)) with (g_lattice g). rewrite sub_good.
  - rewrite !map_map. reflexivity.
  - apply Forall_map. apply Forall_forall. intros p Hp. rewrite Forall_forall in HA. apply HA. exact (in_chops _ _ _ Hsub Hp).
Qed.
Lemma total_ones k : total (repeat 1 k) = INR k.
Proof. induction k as [|k IH]; [reflexivity|]. rewrite S_INR. change (repeat 1 (S k)) with (1 :: repeat 1 k). change (total (1 :: repeat 1 k)) with (1 + total (repeat 1 k)). rewrite IH. ring. Qed.
Lemma answer_finite cast g ne p : g_ref_edges g <> [] -> all_some (sample_pols (eval_mode g) (cast_m cast (g_lattice g)) ne (map (vmap cast) p)) <> None -> answer cast g ne p <> None.
Proof.
  intros Hne HA. unfold answer, sample_result, structure_mean. destruct (all_some _) as [rows|]; [|contradiction].
  replace (map (fun '(g', _, _) => if Nat.eqb g' 0 then 1 else 0) (sample_edges (eval_mode g))) with (repeat 1 (List.length (g_ref_edges g))).
  2: { unfold sample_edges. rewrite map_map. cbn [g_ref_edges eval_mode]. clear. induction (g_ref_edges g) as [|[[a i] j] l IH]; [reflexivity|]. cbn [map List.length repeat]. f_equal. exact IH. }
  rewrite total_ones. destruct (Reqb (INR (List.length (g_ref_edges g))) 0) eqn:E; [|discriminate]. apply Reqb_true in E. destruct (g_ref_edges g); [contradiction|]. exfalso. cbn [List.length] in E. pose proof (lt_0_INR (S (List.length l)) ltac:(lia)). lra.
Qed.

Lemma f_C72 lattice numbers g0 g cast ps : built lattice numbers g0 -> history g0 g -> mdet (cast_m cast lattice) <> 0 ->
  Forall (apart cast (List.length numbers)) ps ->
  exists rs, snd (calc_polarizabilities cast g [List.length ps; List.length numbers; 3%nat] ps) = Ok rs /\ List.length rs = List.length ps /\
    forall k p r, nth_error ps k = Some p -> nth_error rs k = Some r ->
      snd (calc_polarizabilities cast g [1; List.length numbers; 3]%nat [p]) = Ok [r] /\ (g_ref_edges g0 <> [] -> r <> None).
Proof.
  intros HB HH HD HA. destruct (reachable _ _ _ _ HB HH) as (HG & EL & EN & ER & ne & HM). subst lattice numbers.
  assert (HG' : net_ok (eval_mode g)) by exact HG.
  assert (HA' : Forall (fun p => all_some (sample_pols (eval_mode g) (cast_m cast (g_lattice g)) ne (map (vmap cast) p)) <> None) ps).
  { eapply Forall_impl; [|exact HA]. intros p Hp. apply (good_sample cast (eval_mode g) ne p HG' HM HD Hp). }
  exists (map (answer cast g ne) ps). split; [apply calc_good; assumption|]. split; [apply map_length|].
  intros k p r Hk Hr. rewrite (map_nth_error _ _ _ Hk) in Hr. injection Hr as <-. rewrite Forall_forall in HA'. specialize (HA' p (nth_error_In _ _ Hk)). split.
  - apply (calc_good cast g ne [p] HG HM). constructor; [exact HA'|constructor].
  - intros Hne. apply answer_finite; [congruence|exact HA'].
Qed.
Lemma f_C72_shape lattice numbers g0 g cast shape ps : built lattice numbers g0 -> history g0 g -> (forall n, shape <> [n; List.length numbers; 3%nat]) ->
  calc_polarizabilities cast g shape ps = (g, Err ValueError).
Proof. intros HB HH HS. destruct (reachable _ _ _ _ HB HH) as (HG & EL & EN & _). apply calc_shape. rewrite EN. exact HS. Qed.

(** ** Histories *)
Definition only_cache (g g' : potgnn) : Prop := exists st tr, g' = set_triplets (set_mode g tr) st /\ same_graph st (g_triplets g) /\ coherent st.
Lemma only_cache_trans g g' g'' : only_cache g g' -> only_cache g' g'' -> only_cache g g''.
Proof.
  intros (st & tr & -> & (G1 & G2 & G3 & G4) & C) (st' & tr' & -> & (G1' & G2' & G3' & G4') & C'). cbn [g_triplets set_triplets] in *. exists st', tr'. split; [reflexivity|]. split; [repeat split; congruence|exact C'].
Qed.
Lemma only_cache_refl g : coherent (g_triplets g) -> only_cache g g.
Proof. intros C. exists (g_triplets g), (g_training g). split; [destruct g; reflexivity|]. split; [repeat split|exact C]. Qed.
Lemma only_cache_forward g lattice numbers n ps : coherent (g_triplets g) -> only_cache g (fst (forward g lattice numbers n ps)).
Proof.
  intros C. destruct (forward_state g lattice numbers n ps) as [-> | ->]; [apply only_cache_refl, C|].
  destruct (get_triplets_eq (g_triplets g) (Z.of_nat (List.length lattice)) C) as (_ & G & C'). exists (fst (get_triplets (g_triplets g) (Z.of_nat (List.length lattice)))), (g_training g). split; [destruct g; reflexivity|]. split; assumption.
Qed.
Lemma only_cache_coherent g g' : only_cache g g' -> coherent (g_triplets g').
Proof. intros (st & tr & -> & _ & C). exact C. Qed.
Lemma only_cache_predict cast subs : forall g start acc, coherent (g_triplets g) -> only_cache g (fst (predict cast g subs start acc)).
Proof.
  induction subs as [|sub subs IH]; intros g start acc C; [apply only_cache_refl, C|]. cbn [predict].
  match goal with |- context [forward g ?a ?b ?c ?d] => pose proof (only_cache_forward g a b c d C) as HF; destruct (forward g a b c d) as [g' [p|er]] end; cbn [fst] in *; [|exact HF].
  eapply only_cache_trans; [exact HF|]. apply IH. apply (only_cache_coherent _ _ HF).
Qed.
Lemma only_cache_calc cast g shape ps : coherent (g_triplets g) -> only_cache g (fst (calc_polarizabilities cast g shape ps)).
Proof.
  intros C. assert (HE : only_cache g (eval_mode g)) by (exists (g_triplets g), false; split; [reflexivity|]; split; [repeat split|exact C]).
  unfold calc_polarizabilities. destruct (verify_ndarray_shape _ _); [|apply only_cache_refl, C]. destruct (batch_positions _ _ _); [|exact HE].
  match goal with |- context [predict cast ?a ?b ?c ?d] => pose proof (only_cache_predict cast b a c d C) as HP; destruct (predict cast a b c d) end. cbn [fst] in *.
  eapply only_cache_trans; [exact HE|exact HP].
Qed.
Lemma used_cache g g' : coherent (g_triplets g) -> used g g' -> only_cache g g'.
Proof.
  intros C. induction 1 as [|g' tr _ IH|g' lat zs n ps _ IH _|g' cast sh ps _ IH]; [apply only_cache_refl, C| | |].
  - eapply only_cache_trans; [exact IH|]. exists (g_triplets g'), tr. split; [reflexivity|]. split; [repeat split|]. apply (only_cache_coherent _ _ IH).
  - eapply only_cache_trans; [exact IH|]. apply only_cache_forward, (only_cache_coherent _ _ IH).
  - eapply only_cache_trans; [exact IH|]. apply only_cache_calc, (only_cache_coherent _ _ IH).
Qed.
Lemma same_answers cast g g' n m ps : net_ok g -> only_cache g g' ->
  snd (calc_polarizabilities cast g' [n; m; 3%nat] ps) = snd (calc_polarizabilities cast g [n; m; 3%nat] ps).
Proof.
  intros HG (st & tr & -> & (G1 & G2 & G3 & G4) & C). pose proof HG as HG0. destruct HG as (HC & HN & HE & HR & HT). destruct (embed_ok g HT) as [ne HM].
  destruct (Nat.eq_dec m (List.length (g_atomic_numbers g))) as [-> | NE].
  2: { rewrite !calc_shape; [reflexivity| |]; intros n' E; apply NE; cbn in E; congruence. }
  assert (E : forall h, snd (calc_polarizabilities cast h [n; List.length (g_atomic_numbers h); 3%nat] ps) = snd (calc_polarizabilities cast h [List.length ps; List.length (g_atomic_numbers h); 3%nat] ps)).
  { intros h. unfold calc_polarizabilities, verify_ndarray_shape, batch_positions. rewrite !shape_ok. reflexivity. }
  rewrite (E g). change (g_atomic_numbers g) with (g_atomic_numbers (set_triplets (set_mode g tr) st)) at 1. rewrite E.
  rewrite (calc_eq cast g ps ne HG0 HM).
  rewrite (calc_eq cast (set_triplets (set_mode g tr) st) ps ne); [|split; [exact C|]; split; [exact (eq_trans G1 HN)|]; split; [exact (eq_trans G2 HE)|]; split; [exact HR|exact HT]|exact HM].
  f_equal. f_equal. apply map_ext. intros sub. f_equal. unfold block. f_equal. unfold sub_result, sample_result, sample_pols, sample_embedding. cbn [eval_mode set_triplets set_mode g_triplets g_node_blocks g_edge_blocks g_gaussian g_ref_edges g_lattice]. rewrite G3. reflexivity.
Qed.
Lemma f_C72_history lattice numbers g0 g g' cast shape ps : built lattice numbers g0 -> history g0 g -> used g g' ->
  snd (calc_polarizabilities cast g' shape ps) = snd (calc_polarizabilities cast g shape ps).
Proof.
  intros HB HH HU. destruct (reachable _ _ _ _ HB HH) as (HG & EL & EN & ER & ne & HM). pose proof (used_cache g g' (proj1 HG) HU) as HO.
  assert (HN : g_atomic_numbers g' = g_atomic_numbers g) by (destruct HO as (st & tr & -> & _); reflexivity).
  assert (D : (exists n, shape = [n; List.length (g_atomic_numbers g); 3%nat]) \/ (forall n, shape <> [n; List.length (g_atomic_numbers g); 3%nat])).
  { destruct shape as [|a [|b [|c [|]]]]; try (right; discriminate). destruct (Nat.eq_dec b (List.length (g_atomic_numbers g))) as [-> | NE]; [|right; congruence]. destruct (Nat.eq_dec c 3) as [-> | NE]; [left; eexists; reflexivity|right; congruence]. }
  destruct D as [[n ->] | D]; [apply same_answers; assumption|]. rewrite !calc_shape; [reflexivity|exact D|rewrite HN; exact D].
Qed.

(** ** A sample without a direction spoils its block *)
Lemma chop_nth {A} (l : list A) k x : (0 < k)%nat -> nth_error (chop k l (x / k)) (x mod k) = nth_error l x.
Proof.
  intros H. rewrite chop_firstn. pose proof (Nat.mod_upper_bound x k ltac:(lia)). pose proof (Nat.div_mod x k ltac:(lia)).
  assert (F : forall (m : list A) a b, (a < b)%nat -> nth_error (firstn b m) a = nth_error m a). { clear. induction m as [|y m IH]; intros [|a] [|b] H; cbn; try lia; try reflexivity. apply IH. lia. }
  rewrite F by assumption. assert (G : forall (m : list A) a b, nth_error (skipn a m) b = nth_error m (a + b)). { clear. induction m as [|y m IH]; intros [|a] b; cbn; try reflexivity; [destruct b; reflexivity|apply IH]. }
  rewrite G. f_equal. lia.
Qed.
Lemma block_nth {A B} (F : list A -> list B) l k m : (0 < k)%nat -> (forall s, List.length (F s) = List.length s) -> forall s x, (s * k + x < List.length l)%nat -> (List.length l <= (s + m) * k)%nat ->
  nth_error (concat (map F (map (chop k l) (seq s m)))) x = nth_error (F (chop k l (s + x / k))) (x mod k).
Proof.
  intros Hk HF. induction m as [|m IH]; intros s x Hx Hl; [nia|]. cbn [seq map concat].
  assert (Hc : List.length (F (chop k l s)) = Nat.min k (List.length l - s * k)) by (rewrite HF, chop_firstn, firstn_length, skipn_length; reflexivity).
  destruct (Nat.lt_ge_cases x k) as [L | L].
  - rewrite nth_error_app1 by (rewrite Hc; lia). rewrite Nat.div_small, Nat.mod_small, Nat.add_0_r by exact L. reflexivity.
  - rewrite nth_error_app2 by (rewrite Hc; lia). rewrite Hc. replace (Nat.min k (List.length l - s * k)) with k by lia. rewrite IH by nia.
    assert (E : x = (x - k + 1 * k)%nat) by lia. replace (x / k)%nat with ((x - k) / k + 1)%nat by (rewrite E at 2; rewrite Nat.div_add by lia; reflexivity).
    replace (x mod k)%nat with ((x - k) mod k)%nat by (rewrite E at 2; rewrite Nat.mod_add by lia; reflexivity). do 3 f_equal. lia.
Qed.
Lemma f_C72_spoiled lattice numbers g0 g cast ps : built lattice numbers g0 -> history g0 g ->
  exists rs, snd (calc_polarizabilities cast g [List.length ps; List.length numbers; 3%nat] ps) = Ok rs /\ List.length rs = List.length ps /\
    forall k m q, nth_error ps m = Some q -> collapsed cast g0 q -> (k < List.length ps)%nat -> (k / 100 = m / 100)%nat -> nth_error rs k = Some None.
Proof.
  intros HB HH. destruct (reachable _ _ _ _ HB HH) as (HG & EL & EN & ER & ne & HM). subst numbers. assert (HG' : net_ok (eval_mode g)) by exact HG.
  eexists. split; [apply calc_eq; eassumption|]. fold (chops ps).
  assert (HF : forall s, List.length (map (finish g) (block cast (eval_mode g) ne s)) = List.length s) by (intros s; rewrite map_length; apply block_length). split.
  - rewrite <- (chops_concat ps) at 2. generalize (chops ps) as cs. induction cs as [|c cs IH]; [reflexivity|]. cbn [map concat]. rewrite !app_length, HF, IH. reflexivity.
  - intros k m q Hq HCo Hk Hkm. unfold chops. rewrite block_nth; [|lia|exact HF|lia|pose proof (ceil_100 (List.length ps)); lia]. cbn [Nat.add].
    pose proof (chop_nth ps 100 m ltac:(lia)) as Hm. rewrite Hq in Hm. pose proof (chop_nth ps 100 k ltac:(lia)) as Hk'. rewrite <- Hkm in Hm.
    set (sub := chop 100 ps (k / 100)) in *. unfold block. change (g_lattice (eval_mode g)) with (g_lattice g).
    assert (HC' : collapsed cast (eval_mode g) q). { destruct HCo as (s & i & j & pi & pj & H1 & H2). exists s, i, j, pi, pj. split; [cbn; rewrite ER; exact H1|exact H2]. }
    rewrite (sub_bad (eval_mode g) (cast_m cast (g_lattice g)) ne (map (map (vmap cast)) sub) (map (vmap cast) q)).
    + rewrite !map_map. destruct (nth_error sub (k mod 100)) as [p|] eqn:Es; [|apply eq_sym, nth_error_None in Hk'; lia]. etransitivity; [exact (map_nth_error _ _ _ Es)|]. reflexivity.
    + apply in_map, (nth_error_In _ _ Hm).
    + apply (bad_sample cast (eval_mode g) ne q HG' HM HC').
Qed.

(** ** Symmetries of the predictions *)
Lemma f2impl {A B} (P Q : A -> B -> Prop) l m : (forall a b, P a b -> Q a b) -> Forall2 P l m -> Forall2 Q l m.
Proof. intros H. induction 1; constructor; auto. Qed.
Lemma answers_ext cast g ne ps qs : net_ok g -> mapM (node_embedding g) (g_atomic_numbers g) = Ok ne ->
  Forall2 (fun p q => forall s i j, In (s, i, j) (g_ref_edges g) -> cart_displacement [cast_m cast (g_lattice g)] [map (vmap cast) p] 0 i j = cart_displacement [cast_m cast (g_lattice g)] [map (vmap cast) q] 0 i j) ps qs ->
  snd (calc_polarizabilities cast g [List.length ps; List.length (g_atomic_numbers g); 3%nat] ps) = snd (calc_polarizabilities cast g [List.length qs; List.length (g_atomic_numbers g); 3%nat] qs).
Proof.
  intros HG HM HF. rewrite !(calc_eq cast g _ ne HG HM). fold (chops ps). fold (chops qs). f_equal. f_equal.
  assert (HL : List.length ps = List.length qs) by (clear - HF; induction HF; cbn; congruence).
  assert (HP : Forall2 (fun p q => sample_pols (eval_mode g) (cast_m cast (g_lattice g)) ne (map (vmap cast) p) = sample_pols (eval_mode g) (cast_m cast (g_lattice g)) ne (map (vmap cast) q)) ps qs).
  { eapply f2impl; [|exact HF]. cbv beta. intros p q H. unfold sample_pols.
    assert (E1 : sample_vectors (eval_mode g) (cast_m cast (g_lattice g)) (map (vmap cast) p) = sample_vectors (eval_mode g) (cast_m cast (g_lattice g)) (map (vmap cast) q)).
    { unfold sample_vectors. apply map_ext_in. intros [[s i] j] Hin. rewrite (H s i j Hin). reflexivity. }
    assert (E2 : sample_distances (eval_mode g) (cast_m cast (g_lattice g)) (map (vmap cast) p) = sample_distances (eval_mode g) (cast_m cast (g_lattice g)) (map (vmap cast) q)).
    { unfold sample_distances. apply map_ext_in. intros [[s i] j] Hin. unfold cart_distance. rewrite (H s i j Hin). reflexivity. }
    unfold sample_embedding. rewrite E1, E2. reflexivity. }
  unfold chops. rewrite HL, !map_map. apply map_ext. intros b. f_equal. unfold block. f_equal. rewrite !chop_firstn.
  assert (HP' : Forall2 (fun p q => sample_pols (eval_mode g) (cast_m cast (g_lattice g)) ne (map (vmap cast) p) = sample_pols (eval_mode g) (cast_m cast (g_lattice g)) ne (map (vmap cast) q)) (firstn 100 (skipn (b * 100) ps)) (firstn 100 (skipn (b * 100) qs))).
  { assert (S1 : forall n, Forall2 (fun p q => sample_pols (eval_mode g) (cast_m cast (g_lattice g)) ne (map (vmap cast) p) = sample_pols (eval_mode g) (cast_m cast (g_lattice g)) ne (map (vmap cast) q)) (skipn n ps) (skipn n qs)).
    { clear - HP. intros n. revert n. induction HP; intros [|n]; cbn; auto. }
    specialize (S1 (b * 100)%nat). revert S1. generalize (skipn (b * 100) ps) (skipn (b * 100) qs). clear. intros u v H. generalize 100%nat as n. induction H; intros [|n]; cbn; auto. }
  revert HP'. generalize (firstn 100 (skipn (b * 100) ps)) (firstn 100 (skipn (b * 100) qs)). clear. intros u v H. unfold sub_result.
  change (g_lattice (eval_mode g)) with (g_lattice g). rewrite !map_map.
  assert (E1 : map (fun x => sample_pols (eval_mode g) (cast_m cast (g_lattice g)) ne (map (vmap cast) x)) u = map (fun x => sample_pols (eval_mode g) (cast_m cast (g_lattice g)) ne (map (vmap cast) x)) v) by (induction H; cbn; congruence).
  rewrite E1. destruct (all_some _); clear E1; induction H as [|p q u v H H' IH]; cbn [map]; try reflexivity; f_equal; auto. unfold sample_result. rewrite H. reflexivity.
Qed.
Lemma cast_m_id m : cast_m (fun x => x) m = m.
Proof. destruct m as [[] [] []]. reflexivity. Qed.
Lemma map_vmap_id p : map (vmap (fun x => x)) p = p.
Proof. rewrite <- (map_id p) at 2. apply map_ext. intros []. reflexivity. Qed.
Lemma f_C79_moved lattice numbers g0 g ps qs : built lattice numbers g0 -> history g0 g -> Forall (fun p => List.length p = List.length numbers) ps -> Forall2 moved_sample ps qs ->
  snd (calc_polarizabilities (fun x => x) g [List.length qs; List.length numbers; 3%nat] qs) = snd (calc_polarizabilities (fun x => x) g [List.length ps; List.length numbers; 3%nat] ps).
Proof.
  intros HB HH HL HQ. destruct (reachable _ _ _ _ HB HH) as (HG & EL & EN & ER & ne & HM). subst numbers. symmetry. apply (answers_ext _ g ne); [exact HG|exact HM|].
  assert (HQ' : Forall2 (fun p q => List.length p = List.length (g_atomic_numbers g) /\ moved_sample p q) ps qs). { clear - HL HQ. induction HQ; constructor; inversion HL; subst; auto. }
  eapply f2impl; [|exact HQ']. intros p q (Hl & t & HT) s i j Hin. destruct HG as (_ & _ & _ & HR & _). unfold edges_ok in HR. rewrite Forall_forall in HR. specialize (HR _ Hin). cbn in HR. destruct HR as (_ & Hi & Hj). rewrite <- Hl in Hi, Hj.
  rewrite cast_m_id, !map_vmap_id. unfold cart_displacement. cbn [nth]. f_equal.
  assert (HN : forall x, (x < List.length p)%nat -> vcongr (vadd (nth x p v0) t) (nth x q v0)). { clear - HT. induction HT; intros [|x0] Hx; cbn in *; try lia; auto. apply IHHT. lia. }
  destruct (HN i Hi) as (A1 & A2 & A3). destruct (HN j Hj) as (B1 & B2 & B3).
  assert (C : forall a b c d t, congr1 (a + t) b -> congr1 (c + t) d -> wrapd (c - a) = wrapd (d - b)). { intros a b c d t' [k K] [l' K']. apply wrapd_proper. exists (l' - k)%Z. rewrite minus_IZR. lra. }
  apply V3_eq; cbn [vx vy vz vmap vsub]; eapply C; [exact A1|exact B1|exact A2|exact B2|exact A3|exact B3].
Qed.
Lemma to_tensor_sym v : symmetric3 (to_tensor v).
Proof. reflexivity. Qed.
Lemma f_C79_symmetric lattice numbers g0 g cast n ps rs : built lattice numbers g0 -> history g0 g -> symmetric3 (g_mean g0) -> symmetric3 (g_stddev g0) ->
  snd (calc_polarizabilities cast g [n; List.length numbers; 3%nat] ps) = Ok rs -> forall a, In (Some a) rs -> symmetric3 a.
Proof.
  intros HB HH SM SS HR a Ha. destruct (built_ok _ _ _ HB) as (H0 & _). destruct (history_same g0 g H0 HH) as (_ & _ & EM & ES & _). destruct (reachable _ _ _ _ HB HH) as (HG & EL & EN & ER & ne & HM). subst numbers.
  assert (E : snd (calc_polarizabilities cast g [n; List.length (g_atomic_numbers g); 3%nat] ps) = snd (calc_polarizabilities cast g [List.length ps; List.length (g_atomic_numbers g); 3%nat] ps)).
  { unfold calc_polarizabilities, verify_ndarray_shape, batch_positions. rewrite !shape_ok. reflexivity. }
  rewrite E, (calc_eq cast g ps ne HG HM) in HR. injection HR as <-. apply in_concat in Ha. destruct Ha as (l & Hl & Ha). apply in_map_iff in Hl. destruct Hl as (sub & <- & _). apply in_map_iff in Ha. destruct Ha as (x & Hx & Hin).
  unfold block in Hin. apply in_map_iff in Hin. destruct Hin as (y & <- & _). destruct y as [v|]; [|discriminate]. cbn in Hx. injection Hx as <-. rewrite EM, ES.
  unfold symmetric3 in *. destruct (g_mean g0) as [[] [] []], (g_stddev g0) as [[] [] []]. cbn in *. injection SM. injection SS. intros. subst. reflexivity.
Qed.
