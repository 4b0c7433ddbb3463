(** Concrete cases for the order of the atoms. *)
From Coq Require Import ZArith Reals Bool Arith List Permutation Lia Lra.
From Verif Require Import Base LinAlg M_Validate M_StructUtils S_Lattice P_StructUtils M_Torch S_Torch P_Torch P_Torch2 M_Gnn S_Gnn P_Gnn P_Gnn2 P_Gnn3 P_Gnn4 P_Edge S_GnnNew P_GnnNew P_Examples10 S_Relabel P_Relabel P_Relabel2 P_Relabel3 P_Relabel4.
Import ListNotations.
Local Open Scope R_scope.

(** ** [ex_dimenet] finds the triplets *)
Lemma flat_nodup {A B C} (f : A -> list B) (key : B -> C) (back : A -> C) l : (forall a b, In b (f a) -> key b = back a) -> (forall a a', In a l -> In a' l -> back a = back a' -> a = a') ->
  NoDup l -> (forall a, In a l -> NoDup (f a)) -> NoDup (flat_map f l).
Proof.
  intros HK HB. induction l as [|a l IH]; intros ND HF; [constructor|]. cbn. inversion_clear ND as [|? ? Hn Hd].
  assert (G : forall u v : list B, NoDup u -> NoDup v -> (forall x, In x u -> ~ In x v) -> NoDup (u ++ v)).
  { induction u as [|x u IHu]; intros v Hu Hv D; [exact Hv|]. cbn. inversion_clear Hu. constructor; [rewrite in_app_iff; intros [X | X]; [contradiction|exact (D x (or_introl eq_refl) X)]|]. apply IHu; [assumption|assumption|]. intros y Hy. apply D. right. exact Hy. }
  apply G; [apply HF; left; reflexivity| |].
  - apply IH; [intros x y Hx Hy; apply HB; right; assumption|exact Hd|intros x Hx; apply HF; right; exact Hx].
  - intros b Hb Hb'. apply in_flat_map in Hb'. destruct Hb' as (a' & Ha' & Hb'). assert (a = a') by (apply HB; [left; reflexivity|right; exact Ha'|]; rewrite <- (HK _ _ Hb), <- (HK _ _ Hb'); reflexivity). subst a'. contradiction.
Qed.
Lemma ex_pairs_iff edges i j k b a : In (i, j, k, b, a) (ex_pairs edges) <-> i <> k /\ nth_error edges a = Some (j, i) /\ nth_error edges b = Some (k, j).
Proof.
  split.
  - intros H. split; [|apply ex_pairs_in; exact H]. apply in_flat_map in H. destruct H as (a' & _ & H). apply in_flat_map in H. destruct H as (b' & _ & H).
    destruct (nth_error edges a') as [[j0 i0]|]; [|destruct H]. destruct (nth_error edges b') as [[k0 j1]|]; [|destruct H].
    destruct (Nat.eqb j0 j1); [|destruct H]. destruct (Nat.eqb_spec k0 i0); cbn [negb andb] in H; [destruct H|]. destruct H as [H | []]. injection H as <- <- <- <- <-. congruence.
  - intros (N & Ha & Hb). apply in_flat_map. exists a. split; [apply in_seq; apply some_lt in Ha; lia|]. apply in_flat_map. exists b. split; [apply in_seq; apply some_lt in Hb; lia|].
    rewrite Ha, Hb, Nat.eqb_refl. destruct (Nat.eqb_spec k i); [congruence|]. left. reflexivity.
Qed.
Lemma ex_pairs_nodup edges : NoDup (ex_pairs edges).
Proof.
  unfold ex_pairs. apply (flat_nodup _ (fun '(_, _, _, _, a) => a) (fun a => a)); [|intros; assumption|apply seq_NoDup|].
  - intros a x H. apply in_flat_map in H. destruct H as (b & _ & H). destruct (nth_error edges a) as [[j i]|]; [|destruct H]. destruct (nth_error edges b) as [[k j']|]; [|destruct H]. destruct (_ && _)%bool; [destruct H as [<- | []]; reflexivity|destruct H].
  - intros a _. apply (flat_nodup _ (fun '(_, _, _, b, _) => b) (fun b => b)); [|intros; assumption|apply seq_NoDup|].
    + intros b x H. destruct (nth_error edges a) as [[j i]|]; [|destruct H]. destruct (nth_error edges b) as [[k j']|]; [|destruct H]. destruct (_ && _)%bool; [destruct H as [<- | []]; reflexivity|destruct H].
    + intros b _. destruct (nth_error edges a) as [[j i]|]; [|constructor]. destruct (nth_error edges b) as [[k j']|]; [|constructor]. destruct (_ && _)%bool; repeat constructor. intros [].
Qed.
Lemma ex_finder : triplet_finder true ex_dimenet.
Proof.
  intros edges n _ _. unfold lists_triplets, ex_dimenet. cbn [t_i t_j t_index_i t_index_j t_index_k t_index_ji t_index_kj]. split; [reflexivity|]. split; [reflexivity|].
  split; [exists (List.length (ex_pairs edges)); rewrite !map_length; repeat split|].
  assert (E : triplet_rows (ex_dimenet edges n) = map (fun '(i, j, k, b, a) => (i, (j, (k, (b, a))))) (ex_pairs edges)).
  { unfold triplet_rows, ex_dimenet. cbn [t_i t_j t_index_i t_index_j t_index_k t_index_ji t_index_kj]. induction (ex_pairs edges) as [|[[[[i j] k] b] a] l IH]; [reflexivity|]. cbn [map combine]. f_equal. exact IH. }
  unfold ex_dimenet in E. rewrite E. split.
  - apply map_nodup_in; [|apply ex_pairs_nodup]. intros [[[[? ?] ?] ?] ?] [[[[? ?] ?] ?] ?] _ _ X. congruence.
  - intros i j k a b. rewrite in_map_iff. split.
    + intros ([[[[i' j'] k'] b'] a'] & X & H). injection X as -> -> -> -> ->. apply ex_pairs_iff in H. exact H.
    + intros H. exists (i, j, k, a, b). split; [reflexivity|]. apply ex_pairs_iff. exact H.
Qed.

(** ** A network whose predictions tell the elements apart *)
Definition zero_linear (rows : nat) : linear := mkLinear (repeat [0; 0; 0; 0; 0; 0; 0] rows) (repeat 0 rows).
Definition zero_norm (n : nat) : norm := mkNorm (repeat 0 n) (repeat 0 n).
Definition tell_nb : node_block := mkNB (mkLinear [[0; 0; 0]; [0; 0; 0]] [0; 0]) (zero_norm 2) (zero_norm 1) 1.
Definition tell_eb : edge_block := mkEB (mkLinear [[0]; [0]; [1]; [0]] [0; 0; 0; 0]) (zero_linear 4) (mkNorm [0; 0; 1; 0] [0; 0; 0; 0]) (zero_norm 4) (mkNorm [1; 0] [0; 0]) (zero_norm 2) 2.
Definition tell_weights : weights :=
  mkWeights [[0]; [1]] (mkLinear [[1]] [0]) (mkLinear [[1]] [0]) [tell_nb] [tell_eb]
    (mkLinear [[1; 0]; [0; 0]] [0; 0]) (mkBN [0; 0] [1; 1] [1; 1] [0; 0]) (mkLinear [[1; 0]; [0; 0]] [0; 0])
    (mkLinear [[0; 0]; [0; 0]; [0; 0]; [0; 0]; [0; 0]; [0; 0]; [1; 0]; [1; 0]; [0; 0]; [0; 0]; [0; 0]; [0; 0]] (repeat 0 12)).

Lemma ssp_0 : shifted_softplus 0 = 0.
Proof. unfold shifted_softplus. rewrite (proj2 (Rltb_false 20 0)) by lra. rewrite exp_0. replace (1 + 1) with 2 by lra. lra. Qed.
Lemma ssp_lt x y : x < y -> y <= 20 -> shifted_softplus x < shifted_softplus y.
Proof. intros H H'. unfold shifted_softplus. rewrite (proj2 (Rltb_false 20 x)), (proj2 (Rltb_false 20 y)) by lra. pose proof (exp_pos x). pose proof (exp_increasing _ _ H). apply Rplus_lt_compat_r. apply ln_increasing; lra. Qed.
Lemma tanh_0 : tanh 0 = 0.
Proof. unfold tanh. replace (- 0) with 0 by lra. field. pose proof (exp_pos 0). lra. Qed.
Lemma tanh_le1 x : tanh x <= 1.
Proof. unfold tanh. pose proof (exp_pos x). pose proof (exp_pos (- x)). apply Rmult_le_reg_r with (exp x + exp (- x)); [lra|]. unfold Rdiv. rewrite Rmult_assoc, Rinv_l by lra. lra. Qed.
Lemma tanh_lt x y : x < y -> tanh x < tanh y.
Proof.
  intros H. unfold tanh. pose proof (exp_pos x). pose proof (exp_pos (- x)). pose proof (exp_pos y). pose proof (exp_pos (- y)). pose proof (exp_increasing _ _ H). pose proof (exp_increasing (- y) (- x) ltac:(lra)).
  apply Rmult_lt_reg_r with ((exp x + exp (- x)) * (exp y + exp (- y))); [apply Rmult_lt_0_compat; lra|]. replace ((exp x - exp (- x)) / (exp x + exp (- x)) * ((exp x + exp (- x)) * (exp y + exp (- y)))) with ((exp x - exp (- x)) * (exp y + exp (- y))) by (field; lra).
  replace ((exp y - exp (- y)) / (exp y + exp (- y)) * ((exp x + exp (- x)) * (exp y + exp (- y)))) with ((exp y - exp (- y)) * (exp x + exp (- x))) by (field; lra). nra.
Qed.
Lemma ssp_1 : shifted_softplus 1 <= 20.
Proof.
  unfold shifted_softplus. rewrite (proj2 (Rltb_false 20 1)) by lra. pose proof (exp_pos 1) as E0. pose proof (exp_ineq1 1 ltac:(lra)) as E1.
  assert (H : ln (1 + exp 1) < ln (exp 2)) by (apply ln_increasing; [lra|]; replace 2 with (1 + 1) by lra; rewrite exp_plus; nra). rewrite ln_exp in H.
  assert (H2 : ln 1 < ln 2) by (apply ln_increasing; lra). rewrite ln_1 in H2. lra.
Qed.
Lemma ssp_le1 x : x <= 1 -> shifted_softplus x <= 20.
Proof. intros H. destruct (Req_dec x 1) as [-> | N]; [exact ssp_1|]. apply Rlt_le, Rlt_le_trans with (shifted_softplus 1); [apply ssp_lt; lra|exact ssp_1]. Qed.

(** *** Layer by layer *)
Lemma two_rows {A} (f : A -> vec) l w : (forall x, In x l -> exists a b, f x = [a; b]) -> w = [0; 0] -> exists a b, fold_right vplus w (map f l) = [a; b].
Proof.
  intros H ->. induction l as [|x l IH]; [exists 0, 0; reflexivity|]. destruct IH as (a & b & E); [intros y Hy; apply H; right; exact Hy|]. destruct (H x (or_introl eq_refl)) as (c & d & E'). cbn [map fold_right]. rewrite E, E'. exists (c + a), (d + b). reflexivity.
Qed.
Lemma zero_norm2 a b : apply_norm (zero_norm 2) [a; b] = [0; 0].
Proof. unfold apply_norm, zero_norm, vplus, vtimes. cbn [map map2 repeat n_weight n_bias]. f_equal; [|f_equal]; ring. Qed.
Lemma zero_norm1 a : apply_norm (zero_norm 1) [a] = [0].
Proof. unfold apply_norm, zero_norm, vplus, vtimes. cbn [map map2 repeat n_weight n_bias]. f_equal. ring. Qed.
Lemma const_map {A B} (f : A -> B) l c : (forall x, In x l -> f x = c) -> map f l = repeat c (List.length l).
Proof. induction l as [|x l IH]; intros H; [reflexivity|]. cbn. rewrite (H x (or_introl eq_refl)), IH; [reflexivity|]. intros y Hy. apply H. right. exact Hy. Qed.
Lemma tell_c3 node edge i j k ji kj : get_c3_embedding tell_eb node edge i j k ji kj = repeat [0; 0] (List.length edge).
Proof.
  unfold get_c3_embedding. cbn [eb_c3_norm_2 eb_size tell_eb eb_c3_norm_1 eb_c3_linear]. match goal with |- context [map2 ?f (rows_at node i) ?y] => generalize (map2 f (rows_at node i) y); intros c3 end. unfold scatter. rewrite map_map. rewrite (const_map _ _ [0; 0]); [rewrite seq_length; reflexivity|]. intros r _.
  assert (H : exists a b, fold_right vplus (repeat 0 2) (map fst (filter (fun p => Nat.eqb (snd p) r) (combine (map (fun x => gate (apply_norm (zero_norm 4) (apply_linear (zero_linear 4) x))) c3) ji))) = [a; b]).
  { apply two_rows; [|reflexivity]. intros [x y] Hx. apply filter_In in Hx. destruct Hx as [Hx _]. apply in_combine_l in Hx. apply in_map_iff in Hx. destruct Hx as (z & <- & _). cbn [fst]. eexists. eexists. reflexivity. }
  destruct H as (a & b & ->). apply zero_norm2.
Qed.
Lemma tell_node node edge i : node_forward tell_nb node edge i = map (fun r => map tanh (vplus r [0])) node.
Proof.
  unfold node_forward. cbn [nb_c1_linear nb_c1_norm nb_final_norm nb_size tell_nb]. match goal with |- context [map2 ?f (rows_at node i) ?y] => generalize (map2 f (rows_at node i) y); intros c1 end.
  assert (H : map (apply_norm (zero_norm 1)) (scatter 1 (map (fun x => gate (apply_norm (zero_norm 2) (apply_linear (mkLinear [[0; 0; 0]; [0; 0; 0]] [0; 0]) x))) c1) i (List.length node)) = repeat [0] (List.length node)).
  { unfold scatter. rewrite map_map. rewrite (const_map _ _ [0]); [rewrite seq_length; reflexivity|]. intros r _. cbv beta.
    assert (HH : forall l : list (vec * nat), (forall x, In x l -> exists a, fst x = [a]) -> exists a, fold_right vplus (repeat 0 1) (map fst l) = [a]).
    { induction l as [|x l IH]; intros HX; [exists 0; reflexivity|]. destruct IH as (a & E); [intros y Hy; apply HX; right; exact Hy|]. destruct (HX x (or_introl eq_refl)) as (c & E'). cbn [map fold_right]. rewrite E, E'. exists (c + a). reflexivity. }
    match goal with |- context [map fst ?l] => destruct (HH l) as (a & ->) end; [|apply zero_norm1].
    intros [x y] Hx. apply filter_In in Hx. destruct Hx as [Hx _]. apply in_combine_l in Hx. apply in_map_iff in Hx. destruct Hx as (z & <- & _). cbn [fst]. eexists. reflexivity. }
  rewrite H. clear. induction node as [|n node IH]; [reflexivity|]. cbn [List.length repeat map2 map]. f_equal. exact IH.
Qed.
Definition tell_c2 (x : R) : R := nth 0 (apply_norm (mkNorm [1; 0] [0; 0]) (gate (apply_norm (mkNorm [0; 0; 1; 0] [0; 0; 0; 0]) [0; 0; x; 0]))) 0.
Lemma tell_c2_row x : apply_norm (eb_c2_norm_2 tell_eb) (gate (apply_norm (eb_c2_norm_1 tell_eb) (apply_linear (eb_c2_linear tell_eb) [x]))) = [tell_c2 x; 0].
Proof.
  assert (E : apply_linear (eb_c2_linear tell_eb) [x] = [0; 0; x; 0]) by (unfold apply_linear, tell_eb, vtimes, total; cbn; repeat (f_equal; [ring|]); f_equal; ring).
  rewrite E. unfold tell_c2. cbn [eb_c2_norm_2 eb_c2_norm_1 tell_eb]. set (r := gate _). assert (R2 : exists a b, r = [a; b]) by (eexists; eexists; reflexivity). destruct R2 as (a & b & ->).
  unfold apply_norm, vplus, vtimes. cbn [map map2 n_weight n_bias nth]. f_equal. f_equal. ring.
Qed.
Lemma tell_gate x : gate (apply_norm (mkNorm [0; 0; 1; 0] [0; 0; 0; 0]) [0; 0; x; 0]) = [sigmoid 0 * tanh ((x - x / 4) / sqrt (variance [0; 0; x; 0] + eps)); 0].
Proof.
  assert (E : apply_norm (mkNorm [0; 0; 1; 0] [0; 0; 0; 0]) [0; 0; x; 0] = [0; 0; (x - x / 4) / sqrt (variance [0; 0; x; 0] + eps); 0]).
  { unfold apply_norm, vplus, vtimes. cbn [map map2 n_weight n_bias]. repeat (f_equal; [try ring|]); [|f_equal; ring]. replace (mean [0; 0; x; 0]) with (x / 4) by (unfold mean, total; cbn [fold_right List.length INR]; field). ring. }
  rewrite E. unfold gate, chunk2. cbn [List.length Nat.add Nat.div Nat.divmod fst firstn skipn map vtimes map2]. unfold vtimes. cbn [map2]. rewrite tanh_0. f_equal. f_equal. ring.
Qed.
Lemma variance_pos l : 0 <= variance l.
Proof.
  unfold variance. generalize (mean l). intros m. unfold mean, Rdiv. apply Rmult_le_pos.
  - induction l as [|x l IH]; cbn [map total fold_right]; [lra|]. unfold total in IH. pose proof (pow2_ge_0 (x - m)). lra.
  - destruct l as [|x l]; [cbn; rewrite Rinv_0; lra|]. apply Rlt_le, Rinv_0_lt_compat. apply lt_0_INR. cbn. lia.
Qed.
Lemma spread_pos l : 0 < sqrt (variance l + eps).
Proof. apply sqrt_lt_R0. pose proof (variance_pos l). unfold eps. lra. Qed.
Lemma tell_c2_value x : exists s s', 0 < s /\ 0 < s' /\ tell_c2 x = sigmoid 0 * tanh (3 / 4 * x / s) / 2 / s'.
Proof.
  unfold tell_c2. rewrite tell_gate. set (y := sigmoid 0 * _). exists (sqrt (variance [0; 0; x; 0] + eps)), (sqrt (variance [y; 0] + eps)). split; [apply spread_pos|]. split; [apply spread_pos|].
  unfold apply_norm, vplus, vtimes. cbn [map map2 n_weight n_bias nth]. replace (mean [y; 0]) with (y / 2) by (unfold mean, total; cbn [fold_right List.length INR]; field).
  replace (sigmoid 0 * tanh (3 / 4 * x / sqrt (variance [0; 0; x; 0] + eps))) with y by (unfold y; replace (3 / 4 * x) with (x - x / 4) by field; reflexivity). field. apply Rgt_not_eq, spread_pos.
Qed.
Lemma tell_c2_0 : tell_c2 0 = 0.
Proof. destruct (tell_c2_value 0) as (s & s' & H & H' & ->). replace (3 / 4 * 0 / s) with 0 by (field; lra). rewrite tanh_0. field. lra. Qed.
Lemma tell_c2_pos x : 0 < x -> 0 < tell_c2 x.
Proof.
  intros Hx. destruct (tell_c2_value x) as (s & s' & H & H' & ->). assert (0 < 3 / 4 * x / s) by (apply Rdiv_lt_0_compat; lra). pose proof (tanh_lt 0 _ H0) as T. rewrite tanh_0 in T.
  assert (0 < sigmoid 0) by (unfold sigmoid; apply Rinv_0_lt_compat; pose proof (exp_pos (- 0)); lra). apply Rdiv_lt_0_compat; [|lra]. apply Rdiv_lt_0_compat; [|lra]. apply Rmult_lt_0_compat; lra.
Qed.

(** The polarizability embedding of one edge *)
Definition tell_scalar (y : R) : R := shifted_softplus (shifted_softplus (y / sqrt (1 + eps))).
Lemma root_ge1 : 1 <= sqrt (1 + eps).
Proof. rewrite <- sqrt_1 at 1. apply sqrt_le_1_alt. unfold eps. lra. Qed.
Lemma tell_scalar_lt x y : x < y -> y <= 1 -> tell_scalar x < tell_scalar y.
Proof.
  intros H H1. unfold tell_scalar. pose proof root_ge1 as HR. assert (D : x / sqrt (1 + eps) < y / sqrt (1 + eps)) by (unfold Rdiv; apply Rmult_lt_compat_r; [apply Rinv_0_lt_compat; lra|exact H]).
  assert (U : y / sqrt (1 + eps) <= 1). { apply Rmult_le_reg_r with (sqrt (1 + eps)); [lra|]. unfold Rdiv. rewrite Rmult_assoc, Rinv_l by lra. lra. }
  apply ssp_lt; [apply ssp_lt; lra|]. apply ssp_le1, U.
Qed.

Lemma tell_row g a b : g_training g = false -> g_pol_linear_1 g = w_pol_linear_1 tell_weights -> g_batch_norm g = w_batch_norm tell_weights ->
  g_pol_linear_2 g = w_pol_linear_2 tell_weights -> g_pol_linear_3 g = w_pol_linear_3 tell_weights ->
  row_embedding g [a; b] = [0; 0; 0; 0; 0; 0; tell_scalar a; tell_scalar a; 0; 0; 0; 0].
Proof.
  intros E0 E1 E2 E3 E4. unfold row_embedding, to_polarizability_embedding. rewrite E0, E1, E2, E3, E4. cbn [map nth w_pol_linear_1 w_batch_norm w_pol_linear_2 w_pol_linear_3 tell_weights].
  assert (L1 : apply_linear (mkLinear [[1; 0]; [0; 0]] [0; 0]) [a; b] = [a; 0]) by (unfold apply_linear, vtimes, total; cbn; f_equal; [ring|f_equal; ring]). rewrite L1. clear L1.
  assert (BN : apply_batch_norm false (mkBN [0; 0] [1; 1] [1; 1] [0; 0]) [[a; 0]] = [[a / sqrt (1 + eps); 0]]).
  { pose proof root_ge1. unfold apply_batch_norm, vplus, vtimes. cbn [List.length bn_mean bn_var bn_weight bn_bias map map2]. f_equal. f_equal; [field; lra|]. f_equal. field. lra. }
  unfold vec in *. rewrite BN. cbn [map nth]. rewrite ssp_0.
  assert (L2 : apply_linear (mkLinear [[1; 0]; [0; 0]] [0; 0]) [shifted_softplus (a / sqrt (1 + eps)); 0] = [shifted_softplus (a / sqrt (1 + eps)); 0]) by (unfold apply_linear, vtimes, total; cbn; f_equal; [ring|f_equal; ring]). rewrite L2. cbn [map]. rewrite ssp_0. fold (tell_scalar a).
  generalize (tell_scalar a) as c. intros c. unfold apply_linear, vtimes, total. cbn [l_weight l_bias repeat map2 fold_right]. repeat (f_equal; [ring|]). f_equal. ring.
Qed.
Lemma tell_pol c u : u <> v0 -> epv [0; 0; 0; 0; 0; 0; c; c; 0; 0; 0; 0] (Some u) = Some [c; 0; 0; 0; 0; 0].
Proof.
  intros H. unfold epv, get_edge_polarizability_vector. destruct (get_rotation (Some u)) as [m|] eqn:E.
  - apply rotation_or_identity in E. pose proof (inverse_is_transpose m E) as EI. rewrite EI. cbn [rbind nth]. rewrite picked, !(turned m _ _ (proj1 E)). cbn [r0 r1 r2 vx vy vz]. f_equal. repeat (f_equal; [ring|]). f_equal. ring.
  - exfalso. unfold get_rotation in E. rewrite normalized_e1 in E. destruct (normalized_spec u H) as (b & Eb & _). rewrite Eb in E. destruct (Reqb _ 0); discriminate.
Qed.

(** The predicted xx component: the mean over the edges of a scalar of the distance and of the two elements *)
Definition tell_first (gf : gaussian) (d : R) : R := exp (gf_coefficient gf * (d - nth 0 (gf_offset gf) 0) ^ 2).
Definition tell_term (gf : gaussian) (nv : list R) (d : R) (i j : nat) : R := tell_scalar (tanh (tell_first gf d + tell_c2 (tanh (nth j nv 0) * tanh (nth i nv 0)))).
Section Tell.
Context (g : potgnn) (nv : list R) (L : M3) (p : list V3).
Context (HG : net_ok g) (E0 : g_training g = false) (E1 : g_pol_linear_1 g = w_pol_linear_1 tell_weights) (E2 : g_batch_norm g = w_batch_norm tell_weights)
  (E3 : g_pol_linear_2 g = w_pol_linear_2 tell_weights) (E4 : g_pol_linear_3 g = w_pol_linear_3 tell_weights) (E5 : g_node_blocks g = [tell_nb]) (E6 : g_edge_blocks g = [tell_eb])
  (EG : List.length (gf_offset (g_gaussian g)) = 2%nat) (EN : List.length nv = List.length (g_atomic_numbers g)).
Context (ET : t_i (bt_ref (g_triplets g)) = map snd (pairs_of (g_ref_edges g)) /\ t_j (bt_ref (g_triplets g)) = map fst (pairs_of (g_ref_edges g))).
Context (HA : forall i j, In (i, j) (pairs_of (g_ref_edges g)) -> cart_displacement [L] [p] 0 i j <> v0).
Let ne : list vec := map (fun x => [x]) nv.

Lemma tell_pols : sample_pols g L ne p = map (fun q => Some [tell_term (g_gaussian g) nv (cart_distance [L] [p] 0 (fst q) (snd q)) (fst q) (snd q); 0; 0; 0; 0; 0]) (pairs_of (g_ref_edges g)).
Proof.
  destruct ET as [ETi ETj]. unfold sample_pols, sample_embedding, sample_vectors, sample_distances. rewrite E5, E6. cbn [message_passing]. rewrite tell_node.
  rewrite !(pairs_map (fun i j => _)). unfold apply_gaussian. rewrite map_map. unfold edge_forward. rewrite tell_c3. unfold get_c2_embedding, rows_at. rewrite ETi, ETj, !map_map. cbn [snd].
  assert (LT : forall i j, In (i, j) (pairs_of (g_ref_edges g)) -> (i < List.length nv /\ j < List.length nv)%nat).
  { intros i j H. rewrite EN. pose proof (edges_range g HG) as ER. rewrite Forall_forall in ER. exact (ER _ H). }
  destruct (gf_offset (g_gaussian g)) as [|o0 [|o1 [|]]] eqn:EO; try discriminate EG. unfold tell_term, tell_first. rewrite EO. cbn [nth map].
  assert (NE : forall i, (i < List.length nv)%nat -> nth i (map (fun r : vec => map tanh (vplus r [0])) ne) [] = [tanh (nth i nv 0)]).
  { intros i Hi. destruct (lt_some _ _ Hi) as [x Ex]. rewrite (nth_error_nth _ _ _ Ex). unfold ne. rewrite map_map. apply nth_error_nth. rewrite nth_error_map, Ex. cbn. rewrite Rplus_0_r. reflexivity. }
  rewrite !map_length. revert HA LT. clear ETi ETj HG. generalize (pairs_of (g_ref_edges g)). intros l. induction l as [|[i j] l IH]; intros HA' LT; [reflexivity|].
  cbn [map map2 combine List.length repeat fst snd]. f_equal.
  - cbn [fst snd] in *. destruct (LT i j (or_introl eq_refl)) as [Hi Hj]. rewrite !NE by assumption. cbn [vtimes map2]. rewrite tell_c2_row. cbn [vplus map2 map].
    rewrite (tell_row g) by assumption. rewrite !Rplus_0_r. destruct (normalized_spec _ (HA' i j (or_introl eq_refl))) as (u & Eu & Hu). rewrite Eu. apply tell_pol.
    intros ->. destruct Hu as (_ & Hu). revert Hu. unfold vdot, v0. cbn [vx vy vz]. lra.
  - apply IH; intros; [apply HA'|apply LT]; right; assumption.
Qed.
End Tell.

Lemma tell_sum (f : nat * nat -> R) l : fold_right vplus (repeat 0 6) (map (fun q => [f q; 0; 0; 0; 0; 0]) l) = [total (map f l); 0; 0; 0; 0; 0].
Proof. induction l as [|q l IH]; [reflexivity|]. cbn [map fold_right]. rewrite IH. unfold vplus. cbn [map2]. rewrite !Rplus_0_r. reflexivity. Qed.
Lemma all_some_map {A} (f : A -> vec) l : all_some (map (fun q => Some (f q)) l) = Some (map f l).
Proof. induction l as [|q l IH]; [reflexivity|]. cbn. rewrite IH. reflexivity. Qed.
Section Predicted.
Context (g : potgnn) (nv : list R) (p : list V3).
Context (HG : net_ok g) (E1 : g_pol_linear_1 g = w_pol_linear_1 tell_weights) (E2 : g_batch_norm g = w_batch_norm tell_weights)
  (E3 : g_pol_linear_2 g = w_pol_linear_2 tell_weights) (E4 : g_pol_linear_3 g = w_pol_linear_3 tell_weights) (E5 : g_node_blocks g = [tell_nb]) (E6 : g_edge_blocks g = [tell_eb])
  (EG : List.length (gf_offset (g_gaussian g)) = 2%nat) (EN : List.length nv = List.length (g_atomic_numbers g)) (EM : g_mean g = m0) (ES : g_stddev g = mI) (EL : g_lattice g = mI).
Context (ET : t_i (bt_ref (g_triplets g)) = map snd (pairs_of (g_ref_edges g)) /\ t_j (bt_ref (g_triplets g)) = map fst (pairs_of (g_ref_edges g))).
Context (HA : forall i j, In (i, j) (pairs_of (g_ref_edges g)) -> cart_displacement [mI] [p] 0 i j <> v0).
Context (HM : mapM (node_embedding g) (g_atomic_numbers g) = Ok (map (fun x => [x]) nv)) (HE : g_ref_edges g <> []).
Lemma tell_prediction : exists t, snd (calc_polarizabilities (fun x => x) g [1%nat; List.length (g_atomic_numbers g); 3%nat] [p]) = Ok [Some t] /\
  vx (r0 t) = total (map (fun q => tell_term (g_gaussian g) nv (cart_distance [mI] [p] 0 (fst q) (snd q)) (fst q) (snd q)) (pairs_of (g_ref_edges g))) / INR (List.length (pairs_of (g_ref_edges g))).
Proof.
  pose proof (calc_eq (fun x => x) g [p] _ HG HM) as C. change (List.length [p]) with 1%nat in C. rewrite C. clear C.
  change ((1 + 99) / 100)%nat with 1%nat. cbn [seq map]. rewrite chop_firstn. cbn [Nat.mul skipn firstn concat app map]. rewrite app_nil_r.
  unfold block. cbn [map]. rewrite map_vmap_id. change (g_lattice (eval_mode g)) with (g_lattice g). rewrite EL, cast_m_id.
  pose proof (tell_pols (eval_mode g) nv mI p HG eq_refl E1 E2 E3 E4 E5 E6 EG EN ET HA) as TP. change (g_ref_edges (eval_mode g)) with (g_ref_edges g) in TP. change (g_gaussian (eval_mode g)) with (g_gaussian g) in TP.
  rewrite sub_good by (constructor; [rewrite TP, all_some_map; discriminate|constructor]). cbn [map]. unfold sample_result. rewrite mean_of by (rewrite TP; unfold pairs_of; rewrite !map_length; reflexivity).
  rewrite TP, all_some_map, tell_sum, map_length. destruct (Reqb _ 0) eqn:EB.
  - exfalso. apply Reqb_true in EB. unfold pairs_of in EB. rewrite map_length in EB. destruct (g_ref_edges g) as [|x l]; [contradiction|]. change 0 with (INR 0) in EB. apply INR_eq in EB. discriminate EB.
  - cbn [option_map map]. eexists. split; [reflexivity|]. rewrite EM, ES. unfold to_tensor. cbn [nth]. unfold madd, hadamard, vadd, mI, m0, v0. cbn [r0 vx]. ring.
Qed.
End Predicted.

Lemma total_lt {A} (f h : A -> R) l : (forall x, In x l -> f x <= h x) -> (exists x, In x l /\ f x < h x) -> total (map f l) < total (map h l).
Proof.
  assert (LE : forall l, (forall x, In x l -> f x <= h x) -> total (map f l) <= total (map h l)).
  { induction l0 as [|x l0 IH]; intros H; cbn; [lra|]. pose proof (H x (or_introl eq_refl)). pose proof (IH (fun y Hy => H y (or_intror Hy))) as I. unfold total in I. lra. }
  induction l as [|x l IH]; intros H (y & Hy & L); [destruct Hy|]. cbn. pose proof (H x (or_introl eq_refl)) as Hx. destruct Hy as [-> | Hy].
  - pose proof (LE l (fun z Hz => H z (or_intror Hz))) as I. unfold total in I. lra.
  - pose proof (IH (fun z Hz => H z (or_intror Hz)) (ex_intro _ y (conj Hy L))) as I. unfold total in I. lra.
Qed.

(** Two hydrogen atoms and a fluorine atom.  CPython iterates [set([1, 1, 9])] as 1, 9 and [set([9, 1, 1])] as 9, 1: 9 and 1 fall into the same slot. *)
Definition tell_net (order : list Z) (numbers : list Z) (positions : list V3) : res potgnn :=
  potgnn_new ex_dimenet order tell_weights (fun x => x) mI numbers positions (3/10) 1 2 1 0 5 [3; 3]%nat [3; 3]%nat m0 mI.
Definition turned_positions : list V3 := [mkV 0 (/4) 0; mkV 0 0 0; mkV (/4) 0 0].
Definition turn3 (i : nat) : nat := match i with 0 => 1 | 1 => 2 | _ => 0 end%nat.

Lemma tell_made order numbers positions : iterates_set order numbers -> Forall (fun z => (0 <= z <= 118)%Z) numbers -> exists g, tell_net order numbers positions = Ok g.
Proof.
  intros HO HN. apply (f_C84_outcome _ _ _ _ _ _ _ _ _ _ _ _ _ _ _ _ _ HO). split; [|split; [lia|]].
  - unfold good_settings. repeat split; try lia; try lra.
  - eapply Forall_impl; [|exact HN]. cbv beta. intros z. lia.
Qed.
Lemma new_weights dimenet order w cast lattice numbers positions cutoff node edge passes start stop ms ss mean stddev g :
  potgnn_new dimenet order w cast lattice numbers positions cutoff node edge passes start stop ms ss mean stddev = Ok g ->
  g_embedding g = w_embedding w /\ g_node_linear_1 g = w_node_linear_1 w /\ g_node_linear_2 g = w_node_linear_2 w /\ g_node_blocks g = w_node_blocks w /\ g_edge_blocks g = w_edge_blocks w /\
  g_pol_linear_1 g = w_pol_linear_1 w /\ g_batch_norm g = w_batch_norm w /\ g_pol_linear_2 g = w_pol_linear_2 w /\ g_pol_linear_3 g = w_pol_linear_3 w.
Proof.
  intros H. unfold potgnn_new in H. repeat match type of H with (if ?c then _ else _) = _ => destruct c; [discriminate|] end.
  destruct (verify_ndarray_shape ms _); [|discriminate]. destruct (verify_ndarray_shape ss _); [|discriminate]. cbn [rbind] in H.
  destruct (radius_graph_pbc _ _ _ _) as [[es us] ds]. destruct (assign_types _ _ _); [|discriminate]. cbn [rbind] in H. destruct (gaussian_new _ _ _); [|discriminate]. cbn [rbind] in H. injection H as <-. repeat split; reflexivity.
Qed.
Definition tell_one : R := shifted_softplus (shifted_softplus 1).
Lemma tell_one_pos : 0 < tell_one.
Proof. unfold tell_one. pose proof (ssp_lt 0 1 ltac:(lra) ltac:(lra)) as H. rewrite ssp_0 in H. pose proof ssp_1. pose proof (ssp_lt 0 (shifted_softplus 1) H ltac:(lra)) as H'. rewrite ssp_0 in H'. exact H'. Qed.
Lemma tell_element g v : g_node_linear_1 g = w_node_linear_1 tell_weights -> g_node_linear_2 g = w_node_linear_2 tell_weights -> forall z, embed g z = Ok [v] -> node_embedding g z = Ok [shifted_softplus (shifted_softplus v)].
Proof.
  intros E1 E2 z E. unfold node_embedding. rewrite E, E1, E2. cbn [rbind]. f_equal. unfold apply_linear, vtimes, total. cbn [w_node_linear_1 w_node_linear_2 tell_weights l_weight l_bias map map2 fold_right]. f_equal. rewrite !Rplus_0_r, !Rmult_1_l. reflexivity.
Qed.
Lemma turn3_order : reordering 3 turn3.
Proof. split; [intros [|[|[|i]]] H; cbn; lia|]. intros [|[|[|i]]] [|[|[|j]]] H H' E; cbn in E; lia. Qed.
Lemma turn3_numbers : reordered turn3 [1; 1; 9]%Z [9; 1; 1]%Z.
Proof. split; [reflexivity|]. intros [|[|[|i]]] H; try reflexivity. cbn in H. lia. Qed.
Lemma turn3_positions : reordered turn3 ex_positions turned_positions.
Proof. split; [reflexivity|]. intros [|[|[|i]]] H; try reflexivity. cbn in H. lia. Qed.
Lemma it19 : iterates_set [1; 9]%Z [1; 1; 9]%Z.
Proof. split; [repeat constructor; cbn; intuition discriminate|]. intros z. cbn. intuition. Qed.
Lemma it91 : iterates_set [9; 1]%Z [1; 1; 9]%Z.
Proof. split; [repeat constructor; cbn; intuition discriminate|]. intros z. cbn. intuition. Qed.
Lemma it91' : iterates_set [9; 1]%Z [9; 1; 1]%Z.
Proof. split; [repeat constructor; cbn; intuition discriminate|]. intros z. cbn. intuition. Qed.
Lemma wrap_small x : - / 2 < x <= / 2 -> wrapd x = x.
Proof. intros Hx. symmetry. apply wrapd_unique. apply ex_image. exact Hx. Qed.
Lemma ex_wrapped i j : (i < 3)%nat -> (j < 3)%nat -> i <> j -> cart_displacement [mI] [ex_positions] 0 i j <> v0.
Proof.
  intros Hi Hj N. unfold cart_displacement. cbn [nth]. rewrite vmul_mI.
  destruct i as [|[|[|i]]]; [..|lia]; destruct j as [|[|[|j]]]; try lia; try congruence; unfold ex_positions, vsub, vmap, v0; cbn [nth vx vy vz]; rewrite !wrap_small by lra; intros E; injection E; intros; lra.
Qed.

(** *** The predictions of a network and of the one with the other iteration order *)
Lemma tell_values order numbers positions g : tell_net order numbers positions = Ok g -> iterates_set order numbers -> List.length order = 2%nat -> Forall (fun z => (0 <= z <= 118)%Z) numbers -> List.length positions = List.length numbers ->
  net_ok g /\ (forall i z, nth_error order i = Some z -> node_embedding g z = Ok [nth i [0; tell_one] 0]).
Proof.
  intros N HO LO HN HL. destruct (new_triplets true ex_dimenet ex_finder _ _ _ _ _ _ _ _ _ _ _ _ _ _ _ _ _ N HL) as [T1 T2].
  assert (B : built mI numbers g) by (do 15 eexists; split; [exact N|]; split; [exact HL|]; split; [exact HO|]; split; [cbn; congruence|exact T2]).
  split; [apply (built_ok _ _ _ B)|]. intros i z Ez. destruct (new_weights _ _ _ _ _ _ _ _ _ _ _ _ _ _ _ _ _ _ N) as (W1 & W2 & W3 & _).
  destruct (f_C84_history _ _ _ _ _ _ _ _ _ _ _ _ _ _ _ _ _ g g N HL HO (eq_sym LO) T2 HN (h_new g)) as [H _]. destruct (H i z Ez) as (v & Ev & EE). rewrite W1 in Ev.
  destruct i as [|[|i]]; cbn in Ev; [| |destruct i; discriminate]; injection Ev as <-.
  - rewrite (tell_element g 0 W2 W3 z EE), !ssp_0. reflexivity.
  - rewrite (tell_element g 1 W2 W3 z EE). reflexivity.
Qed.
Lemma tell_net_prediction order g nv : tell_net order [1; 1; 9]%Z ex_positions = Ok g -> iterates_set order [1; 1; 9]%Z -> List.length order = 2%nat -> List.length nv = 3%nat ->
  mapM (node_embedding g) [1; 1; 9]%Z = Ok (map (fun x => [x]) nv) ->
  exists t, snd (calc_polarizabilities (fun x => x) g [1; 3; 3]%nat [ex_positions]) = Ok [Some t] /\
  vx (r0 t) = total (map (fun q => tell_term (g_gaussian g) nv (cart_distance [mI] [ex_positions] 0 (fst q) (snd q)) (fst q) (snd q)) (graph_pairs mI ex_positions (3/10))) / INR (List.length (graph_pairs mI ex_positions (3/10))).
Proof.
  intros N HO LO LN HM. assert (HN : Forall (fun z => (0 <= z <= 118)%Z) [1; 1; 9]%Z) by (repeat constructor; lia).
  destruct (tell_values _ _ _ _ N HO LO HN eq_refl) as [HG _]. destruct (new_triplets true ex_dimenet ex_finder _ _ _ _ _ _ _ _ _ _ _ _ _ _ _ _ _ N eq_refl) as [T1 _].
  destruct (new_weights _ _ _ _ _ _ _ _ _ _ _ _ _ _ _ _ _ _ N) as (W1 & W2 & W3 & W4 & W5 & W6 & W7 & W8 & W9). destruct (new_parts _ _ _ _ _ _ _ _ _ _ _ _ _ _ _ _ _ _ N) as (P1 & P2 & P3 & P4 & P5 & P6 & P7 & P8).
  assert (EP : pairs_of (g_ref_edges g) = graph_pairs mI ex_positions (3/10)) by (rewrite P5, cast_m_id, map_vmap_id; reflexivity).
  assert (EN : g_atomic_numbers g = [1; 1; 9]%Z) by exact P2.
  pose proof (tell_prediction g nv ex_positions HG W6 W7 W8 W9 W4 W5) as TP. rewrite EN, EP in TP. change (List.length [1; 1; 9]%Z) with 3%nat in TP. apply TP.
  - unfold gaussian_new, linspace in P8. change (Z.to_nat 2) with 2%nat in P8. cbn [seq map] in P8. injection P8 as <-. reflexivity.
  - exact LN.
  - exact P3.
  - exact P4.
  - exact P1.
  - rewrite <- EP. split; [apply T1|apply (proj2 T1)].
  - intros i j H. pose proof (pairs_lt _ _ _ _ _ H) as [Hi Hj]. apply pairs_in in H. destruct H as [Nij _]. apply ex_wrapped; [exact Hi|exact Hj|exact Nij].
  - exact HM.
  - intros E0. assert (X : In (0, 0, 1)%nat (g_ref_edges g)) by (rewrite P5; exact ex_edge_in). rewrite E0 in X. destruct X.
Qed.
Lemma tell_apart : exists g g', tell_net [1; 9]%Z [1; 1; 9]%Z ex_positions = Ok g /\ tell_net [9; 1]%Z [9; 1; 1]%Z turned_positions = Ok g' /\ same_weights g g' /\
  exists t t', snd (calc_polarizabilities (fun x => x) g [1; 3; 3]%nat [ex_positions]) = Ok [Some t] /\
    snd (calc_polarizabilities (fun x => x) g' [1; 3; 3]%nat [turned_positions]) = Ok [Some t'] /\ vx (r0 t) < vx (r0 t').
Proof.
  assert (HN : Forall (fun z => (0 <= z <= 118)%Z) [1; 1; 9]%Z) by (repeat constructor; lia). assert (HN' : Forall (fun z => (0 <= z <= 118)%Z) [9; 1; 1]%Z) by (repeat constructor; lia).
  destruct (tell_made _ _ ex_positions it19 HN) as [g N]. destruct (tell_made _ _ ex_positions it91 HN) as [h M]. destruct (tell_made _ _ turned_positions it91' HN') as [g' N'].
  exists g, g'. split; [exact N|]. split; [exact N'|].
  destruct (new_weights _ _ _ _ _ _ _ _ _ _ _ _ _ _ _ _ _ _ N) as (W1 & W2 & W3 & W4 & W5 & W6 & W7 & W8 & W9). destruct (new_weights _ _ _ _ _ _ _ _ _ _ _ _ _ _ _ _ _ _ M) as (X1 & X2 & X3 & X4 & X5 & X6 & X7 & X8 & X9). destruct (new_weights _ _ _ _ _ _ _ _ _ _ _ _ _ _ _ _ _ _ N') as (V1 & V2 & V3 & V4 & V5 & V6 & V7 & V8 & V9).
  split; [repeat split; congruence|].
  pose proof (f_C90_order true ex_dimenet ex_finder [9; 1]%Z tell_weights tell_weights (fun x => x) (fun x => x) mI [1; 1; 9]%Z [9; 1; 1]%Z ex_positions turned_positions (3/10) 1 2 1 0 5 [3; 3]%nat [3; 3]%nat m0 mI h g' h g' turn3 [ex_positions] [turned_positions]
    M N' eq_refl it91 eq_refl eq_refl turn3_order turn3_numbers turn3_positions (h_new h) (h_new g') ltac:(repeat split; congruence) ltac:(constructor; [split; [reflexivity|exact turn3_positions]|constructor])) as EQ.
  cbn [List.length] in EQ. rewrite EQ.
  destruct (tell_values _ _ _ _ N it19 eq_refl HN eq_refl) as [_ A]. destruct (tell_values _ _ _ _ M it91 eq_refl HN eq_refl) as [_ B].
  pose proof (A 0%nat 1%Z eq_refl) as A0. pose proof (A 1%nat 9%Z eq_refl) as A1. pose proof (B 0%nat 9%Z eq_refl) as B0. pose proof (B 1%nat 1%Z eq_refl) as B1. cbn [nth] in A0, A1, B0, B1.
  destruct (tell_net_prediction _ g [0; 0; tell_one] N it19 eq_refl eq_refl) as (t & Et & Vt); [cbn [mapM]; rewrite A0, A1; reflexivity|].
  destruct (tell_net_prediction _ h [tell_one; tell_one; 0] M it91 eq_refl eq_refl) as (t' & Et' & Vt'); [cbn [mapM]; rewrite B0, B1; reflexivity|].
  exists t, t'. split; [exact Et|]. split; [exact Et'|]. rewrite Vt, Vt'.
  destruct (new_parts _ _ _ _ _ _ _ _ _ _ _ _ _ _ _ _ _ _ N) as (_ & _ & _ & _ & _ & _ & _ & G1). destruct (new_parts _ _ _ _ _ _ _ _ _ _ _ _ _ _ _ _ _ _ M) as (_ & _ & _ & _ & _ & _ & _ & G2).
  replace (g_gaussian h) with (g_gaussian g) by congruence.
  assert (IN : In (0, 1)%nat (graph_pairs mI ex_positions (3/10))). { unfold graph_pairs, pairs_of. apply in_map_iff. exists (0, 0, 1)%nat. split; [reflexivity|]. pose proof ex_edge_in as X. unfold ex_lattice in X. rewrite cast_m_id, map_vmap_id in X. exact X. }
  apply Rmult_lt_compat_r; [apply Rinv_0_lt_compat, lt_0_INR; destruct (graph_pairs mI ex_positions (3/10)); [destruct IN|cbn; lia]|].
  pose proof tell_one_pos as P1. pose proof (tanh_lt 0 _ P1) as P2. rewrite tanh_0 in P2. pose proof (tell_c2_pos (tanh tell_one * tanh tell_one) ltac:(apply Rmult_lt_0_compat; assumption)) as P3.
  assert (ST : forall x, tell_scalar (tanh (x + tell_c2 0)) < tell_scalar (tanh (x + tell_c2 (tanh tell_one * tanh tell_one)))). { intros x. rewrite tell_c2_0. apply tell_scalar_lt; [apply tanh_lt; lra|apply tanh_le1]. }
  apply total_lt.
  - intros [i j] H. pose proof (pairs_lt _ _ _ _ _ H) as [Hi Hj]. apply pairs_in in H. destruct H as [Nij _]. cbn in Hi, Hj. cbn [fst snd]. unfold tell_term.
    destruct i as [|[|[|i]]]; [..|lia]; destruct j as [|[|[|j]]]; try lia; try congruence; cbn [nth]; rewrite ?tanh_0, ?Rmult_0_l, ?Rmult_0_r; try apply Rle_refl; apply Rlt_le, ST.
  - exists (0, 1)%nat. split; [exact IN|]. cbn [fst snd]. unfold tell_term. cbn [nth]. rewrite tanh_0, Rmult_0_l. apply ST.
Qed.

Lemma f_C90_iteration_order : exists w dimenet_triplets move positions positions' g g' t t',
  let new order numbers positions :=
    potgnn_new dimenet_triplets order w (fun x => x) mI numbers positions (3/10) 1 2 1 0 5 [3; 3]%nat [3; 3]%nat m0 mI in
  triplet_finder true dimenet_triplets /\
  reordering 3 move /\ reordered move [1; 1; 9]%Z [9; 1; 1]%Z /\ reordered move positions positions' /\
  iterates_set [1; 9]%Z [1; 1; 9]%Z /\ iterates_set [9; 1]%Z [9; 1; 1]%Z /\
  new [1; 9]%Z [1; 1; 9]%Z positions = Ok g /\ new [9; 1]%Z [9; 1; 1]%Z positions' = Ok g' /\ same_weights g g' /\
  snd (calc_polarizabilities (fun x => x) g [1; 3; 3]%nat [positions]) = Ok [Some t] /\
  snd (calc_polarizabilities (fun x => x) g' [1; 3; 3]%nat [positions']) = Ok [Some t'] /\
  vx (r0 t) < vx (r0 t').
Proof.
  destruct tell_apart as (g & g' & N & N' & S & t & t' & E & E' & H). exists tell_weights, ex_dimenet, turn3, ex_positions, turned_positions, g, g', t, t'. cbv zeta.
  split; [exact ex_finder|]. split; [exact turn3_order|]. split; [exact turn3_numbers|]. split; [exact turn3_positions|]. split; [exact it19|]. split; [exact it91'|]. split; [exact N|]. split; [exact N'|]. split; [exact S|]. split; [exact E|]. split; [exact E'|exact H].
Qed.
Lemma ex_C90 : exists g g', triplet_finder true ex_dimenet /\
  tell_net [9; 1]%Z [1; 1; 9]%Z ex_positions = Ok g /\ tell_net [9; 1]%Z [9; 1; 1]%Z turned_positions = Ok g' /\
  iterates_set [9; 1]%Z [1; 1; 9]%Z /\ List.length (w_embedding tell_weights) = 2%nat /\
  reordering 3 turn3 /\ reordered turn3 [1; 1; 9]%Z [9; 1; 1]%Z /\ reordered turn3 ex_positions turned_positions /\
  same_weights g g' /\ g_ref_edges g <> [].
Proof.
  assert (HN : Forall (fun z => (0 <= z <= 118)%Z) [1; 1; 9]%Z) by (repeat constructor; lia). assert (HN' : Forall (fun z => (0 <= z <= 118)%Z) [9; 1; 1]%Z) by (repeat constructor; lia).
  destruct (tell_made _ _ ex_positions it91 HN) as [h M]. destruct (tell_made _ _ turned_positions it91' HN') as [g' N']. exists h, g'.
  split; [exact ex_finder|]. split; [exact M|]. split; [exact N'|]. split; [exact it91|]. split; [reflexivity|]. split; [exact turn3_order|]. split; [exact turn3_numbers|]. split; [exact turn3_positions|].
  destruct (new_weights _ _ _ _ _ _ _ _ _ _ _ _ _ _ _ _ _ _ M) as (X1 & X2 & X3 & X4 & X5 & X6 & X7 & X8 & X9). destruct (new_weights _ _ _ _ _ _ _ _ _ _ _ _ _ _ _ _ _ _ N') as (V1 & V2 & V3 & V4 & V5 & V6 & V7 & V8 & V9).
  split; [repeat split; congruence|]. destruct (new_parts _ _ _ _ _ _ _ _ _ _ _ _ _ _ _ _ _ _ M) as (_ & _ & _ & _ & P5 & _). intros E0. assert (X : In (0, 0, 1)%nat (g_ref_edges h)) by (rewrite P5; exact ex_edge_in). rewrite E0 in X. destruct X.
Qed.
Definition swap12 (i : nat) : nat := match i with 1 => 2 | 2 => 1 | _ => i end%nat.
Lemma pairs_close L p c i j : In (i, j) (graph_pairs L p c) <-> (i <> j /\ i < List.length p /\ j < List.length p)%nat /\ cart_distance [L] [p] 0 i j <= c.
Proof.
  split.
  - intros H. pose proof (pairs_lt _ _ _ _ _ H) as [Hi Hj]. apply pairs_in in H. destruct H as (N & v & Hv & HC). split; [tauto|]. rewrite distance_norm. apply half_vector_eq in Hv. unfold cart_displacement. cbn [nth]. rewrite <- Hv. exact HC.
  - intros ((N & Hi & Hj) & HC). apply pairs_in. split; [exact N|]. exists (cart_displacement [L] [p] 0 i j). rewrite distance_norm in HC. split; [|exact HC].
    destruct (lt_some _ _ Hi) as [pi Ei]. destruct (lt_some _ _ Hj) as [pj Ej]. exists pi, pj, (vmap wrapd (vsub pj pi)). split; [exact Ei|]. split; [exact Ej|]. split; [repeat split; cbn; apply wrapd_image|].
    unfold cart_displacement. cbn [nth]. rewrite (nth_error_nth _ _ _ Ei), (nth_error_nth _ _ _ Ej). reflexivity.
Qed.
Lemma ex_C90_exchange : exists g, ex_net ex_weights = Ok g /\ iterates_set [1; 8]%Z ex_numbers /\
  reordering 3 swap12 /\ reordered swap12 ex_numbers ex_numbers /\
  (forall i j, (i < 3)%nat -> (j < 3)%nat -> In (0%nat, i, j) (g_ref_edges g) <-> In (0%nat, swap12 i, swap12 j) (g_ref_edges g)) /\
  g_ref_edges g <> [] /\ reordered swap12 ex_good [mkV (/8) 0 0; mkV 0 (/4) (/8); mkV (/4) 0 0].
Proof.
  destruct (ex_built ex_weights eq_refl) as (g & E & B & HI & _). exists g. split; [exact E|]. split; [split; [repeat constructor; cbn; intuition discriminate|]; intros z; unfold ex_numbers; cbn; intuition|].
  split; [split; [intros [|[|[|i]]] H; cbn; lia|intros [|[|[|i]]] [|[|[|j]]] H H' X; cbn in X; lia]|].
  split; [split; [reflexivity|]; intros [|[|[|i]]] H; try reflexivity; cbn in H; lia|].
  split; [|split; [intros X; rewrite X in HI; destruct HI|split; [reflexivity|]; intros [|[|[|i]]] H; try reflexivity; cbn in H; lia]].
  destruct (new_parts _ _ _ _ _ _ _ _ _ _ _ _ _ _ _ _ _ _ E) as (_ & _ & _ & _ & P5 & _).
  assert (IN : forall i j, In (0%nat, i, j) (g_ref_edges g) <-> In (i, j) (graph_pairs mI ex_positions (3/10))).
  { intros i j. rewrite P5. unfold ex_lattice. rewrite cast_m_id, map_vmap_id. unfold graph_pairs, pairs_of. rewrite in_map_iff. split; [intros X; exists (0%nat, i, j); split; [reflexivity|exact X]|].
    intros ([[z a] b] & F & X). injection F as -> ->. pose proof X as X'. apply f_C70_edges in X'; [|reflexivity|constructor; [reflexivity|constructor]]. destruct X' as (L & p & i0 & j0 & v & EL & _). destruct z as [|z]; [exact X|destruct z; discriminate]. }
  intros i j Hi Hj. rewrite !IN, !pairs_close. change (List.length ex_positions) with 3%nat.
  assert (D : cart_distance [mI] [ex_positions] 0 (swap12 i) (swap12 j) = cart_distance [mI] [ex_positions] 0 i j).
  { unfold cart_distance, cart_displacement. cbn [nth]. rewrite !vmul_mI. destruct i as [|[|[|i]]]; [..|lia]; destruct j as [|[|[|j]]]; try lia; unfold ex_positions, vsub, vmap; cbn [nth swap12 vx vy vz]; f_equal; rewrite !wrap_small by lra; ring. }
  rewrite D. destruct i as [|[|[|i]]]; [..|lia]; destruct j as [|[|[|j]]]; try lia; cbn [swap12]; intuition lia.
Qed.
