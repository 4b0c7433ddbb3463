(** Proofs about the PyTorch utilities *)
From Coq Require Import ZArith Reals Bool Arith List Lia Lra Sorted.
From Verif Require Import Base LinAlg M_Validate M_StructUtils S_Lattice P_StructUtils M_Torch S_Torch.
Import ListNotations.
Local Open Scope R_scope.

(** * batch_positions *)
Lemma py_range_pos n k : (0 < k)%nat -> py_range n (Z.of_nat k) = Ok (map (fun b => (b * k)%nat) (seq 0 ((n + k - 1) / k))).
Proof.
  intros H. unfold py_range. destruct (Z.eqb_spec (Z.of_nat k) 0); [lia|]. destruct (Z.ltb_spec (Z.of_nat k) 0); [lia|].
  rewrite Nat2Z.id. reflexivity.
Qed.
Lemma shape_ok n m : verify_ndarray_shape [n; m; 3%nat] [None; None; Some 3%nat] = Ok tt.
Proof. reflexivity. Qed.

Section Batches.
Context {A : Type}.
Lemma skip_skip (l : list A) a b : skipn a (skipn b l) = skipn (a + b) l.
Proof. revert l. induction b as [|b IH]; intros l; [rewrite Nat.add_0_r; reflexivity|]. destruct l as [|x l]; [rewrite !skipn_nil; reflexivity|]. rewrite Nat.add_succ_r. cbn [skipn]. apply IH. Qed.
Definition chop (k : nat) (l : list A) (b : nat) : list A := firstn (Nat.min (b * k + k) (List.length l) - b * k) (skipn (b * k) l).
Lemma chop_firstn k l b : chop k l b = firstn k (skipn (b * k) l).
Proof.
  unfold chop. destruct (Nat.le_gt_cases (b * k + k) (List.length l)) as [H | H].
  - rewrite Nat.min_l by lia. replace (b * k + k - b * k)%nat with k by lia. reflexivity.
  - rewrite Nat.min_r by lia. rewrite !firstn_all2; rewrite ?skipn_length; try lia. reflexivity.
Qed.
Lemma chop_concat k l m s : (0 < k)%nat -> (List.length l <= (s + m) * k)%nat ->
  concat (map (chop k l) (seq s m)) = skipn (s * k) l.
Proof.
  intros Hk. revert s. induction m as [|m IH]; intros s H; cbn [seq map concat].
  - rewrite skipn_all2; [reflexivity|lia].
  - rewrite IH by lia. rewrite chop_firstn. replace (S s * k)%nat with (k + s * k)%nat by lia.
    rewrite <- (firstn_skipn k (skipn (s * k) l)) at 2. f_equal. rewrite skip_skip. f_equal.
Qed.
Lemma ceil_spec n k : (0 < k)%nat -> (n <= ((n + k - 1) / k) * k)%nat /\ (((n + k - 1) / k) * k < n + k)%nat.
Proof.
  intros H. pose proof (Nat.div_mod (n + k - 1) k ltac:(lia)). pose proof (Nat.mod_upper_bound (n + k - 1) k ltac:(lia)). nia.
Qed.
Lemma batches_eq n m (l : list A) k : (0 < k)%nat ->
  batch_positions [n; m; 3%nat] l (Z.of_nat k) = Ok (map (chop k l) (seq 0 ((List.length l + k - 1) / k))).
Proof.
  intros H. unfold batch_positions. rewrite shape_ok. cbn [rbind]. rewrite py_range_pos by assumption. cbn [rbind]. rewrite map_map.
  f_equal. apply map_ext. intros b. unfold chop. f_equal. lia.
Qed.
Lemma f_C67_partition n m (l : list A) k : (0 < k)%nat ->
  exists bs, batch_positions [n; m; 3%nat] l (Z.of_nat k) = Ok bs /\ concat bs = l /\
    (forall init last, bs = init ++ [last] -> Forall (fun b => List.length b = k) init /\ (1 <= List.length last <= k)%nat) /\
    (List.length bs = (List.length l + k - 1) / k)%nat.
Proof.
  intros H. pose proof (ceil_spec (List.length l) k H) as [H1 H2]. set (q := ((List.length l + k - 1) / k)%nat) in *.
  exists (map (chop k l) (seq 0 q)). split; [apply batches_eq; exact H|]. split; [rewrite chop_concat; [reflexivity|exact H|lia]|].
  split; [|rewrite map_length, seq_length; reflexivity].
  intros init last E. assert (Hq : exists p, q = S p).
  { destruct q; [destruct init; discriminate|eexists; reflexivity]. }
  destruct Hq as [p Hp]. rewrite Hp in E. rewrite seq_S, map_app in E. apply app_inj_tail in E. destruct E as [<- <-]. split.
  - apply Forall_forall. intros b Hb. apply in_map_iff in Hb. destruct Hb as (t & <- & Ht). apply in_seq in Ht. rewrite chop_firstn, firstn_length, skipn_length.
    rewrite Hp in *. nia.
  - cbn [Nat.add]. rewrite chop_firstn, firstn_length, skipn_length. rewrite Hp in *. nia.
Qed.
Lemma f_C67_other n m (l : list A) k : (k <= 0)%Z ->
  batch_positions [n; m; 3%nat] l k = if Z.eqb k 0 then Err ValueError else Ok [].
Proof.
  intros H. unfold batch_positions. rewrite shape_ok. cbn [rbind]. unfold py_range. destruct (Z.eqb_spec k 0) as [-> | ]; [reflexivity|].
  destruct (Z.ltb_spec k 0); [reflexivity|lia].
Qed.
Lemma f_C67_shape shape (l : list A) k : (forall n m, shape <> [n; m; 3%nat]) -> batch_positions shape l k = Err ValueError.
Proof.
  intros H. unfold batch_positions. replace (verify_ndarray_shape shape [None; None; Some 3%nat]) with (@Err unit ValueError); [reflexivity|].
  unfold verify_ndarray_shape. destruct shape as [|a [|b [|c [|d s]]]]; try reflexivity. cbn. destruct (Nat.eqb_spec c 3) as [-> | ]; [exfalso; eapply H; reflexivity|].
  destruct c as [|[|[|[|c]]]]; try reflexivity; contradiction.
Qed.
End Batches.

(** * Triplets *)
Lemma map2_app {A B C} (f : A -> B -> C) l1 l2 m1 m2 : List.length l1 = List.length m1 -> map2 f (l1 ++ l2) (m1 ++ m2) = map2 f l1 m1 ++ map2 f l2 m2.
Proof. revert m1. induction l1 as [|a l1 IH]; intros [|b m1] H; cbn in *; try discriminate; [reflexivity|]. f_equal. apply IH. lia. Qed.
Lemma map2_repeat_r {A B C} (f : A -> B -> C) l b : map2 f l (repeat b (List.length l)) = map (fun a => f a b) l.
Proof. induction l; cbn; [reflexivity|]. f_equal. exact IHl. Qed.
Lemma copies_from l step n s : map2 (fun a b => (a + b * step)%nat) (concat (repeat l n)) (flat_map (fun b => repeat b (List.length l)) (seq s n)) =
  flat_map (fun b => map (fun x => (x + b * step)%nat) l) (seq s n).
Proof.
  revert s. induction n as [|n IH]; intros s; [reflexivity|]. cbn [repeat concat seq flat_map]. rewrite map2_app by (rewrite repeat_length; reflexivity).
  rewrite IH, map2_repeat_r. reflexivity.
Qed.
Lemma copies_eq l step n : map2 (fun a b => (a + b * step)%nat) (tensor_repeat n l) (batch_indexes n (List.length l)) = shifted_copies n step l.
Proof. apply copies_from. Qed.
Lemma shifted_copies_1 step l : shifted_copies 1 step l = l.
Proof. unfold shifted_copies. cbn [seq flat_map]. rewrite app_nil_r. rewrite <- (map_id l) at 2. apply map_ext. intros; lia. Qed.

Definition fresh (bt : batch_triplets) (b : Z) : triplets :=
  let n := Z.to_nat b in
  each_triplet (shifted_copies n (bt_num_nodes bt)) (shifted_copies n (bt_num_nodes bt)) (shifted_copies n (bt_num_edges bt)) (bt_ref bt).
Definition same_graph (a b : batch_triplets) : Prop :=
  bt_num_nodes a = bt_num_nodes b /\ bt_num_edges a = bt_num_edges b /\ bt_ref a = bt_ref b /\ bt_num_triplets a = bt_num_triplets b.
Definition coherent (bt : batch_triplets) : Prop :=
  triplets_for (bt_num_nodes bt) (bt_num_edges bt) (bt_ref bt) /\ bt_num_triplets bt = List.length (t_index_i (bt_ref bt)) /\
  (1 <= bt_cached_batch_size bt)%Z /\ bt_cached bt = fresh bt (bt_cached_batch_size bt).
Lemma fresh_1 bt : fresh bt 1 = bt_ref bt.
Proof. unfold fresh, each_triplet. cbn [Z.to_nat Pos.to_nat Pos.iter_op]. change (Pos.to_nat 1) with 1%nat. rewrite !shifted_copies_1. destruct (bt_ref bt). reflexivity. Qed.
Lemma get_triplets_eq bt b : coherent bt ->
  snd (get_triplets bt b) = (if Z.leb b 0 then Err RuntimeError else Ok (fresh bt b)) /\
  same_graph (fst (get_triplets bt b)) bt /\ coherent (fst (get_triplets bt b)).
Proof.
  intros (HT & HN & H1 & HC). unfold get_triplets. destruct (Z.eqb_spec b (bt_cached_batch_size bt)) as [-> | Hb].
  - cbn [fst snd]. destruct (Z.leb_spec (bt_cached_batch_size bt) 0); [lia|]. rewrite <- HC. split; [reflexivity|]. split; [repeat split|]. exact (conj HT (conj HN (conj H1 HC))).
  - destruct (Z.leb_spec b 0); cbn [fst snd]; [split; [reflexivity|]; split; [repeat split|]; exact (conj HT (conj HN (conj H1 HC)))|].
    assert (E : each_triplet (fun l => map2 (fun a b => (a + b * bt_num_nodes bt)%nat) l (batch_indexes (Z.to_nat b) (bt_num_edges bt)))
       (fun l => map2 (fun a b => (a + b * bt_num_nodes bt)%nat) l (batch_indexes (Z.to_nat b) (bt_num_triplets bt)))
       (fun l => map2 (fun a b => (a + b * bt_num_edges bt)%nat) l (batch_indexes (Z.to_nat b) (bt_num_triplets bt)))
       (each_triplet (tensor_repeat (Z.to_nat b)) (tensor_repeat (Z.to_nat b)) (tensor_repeat (Z.to_nat b)) (bt_ref bt)) = fresh bt b).
    { destruct HT as (Hi & Hj & (k & K1 & K2 & K3 & K4 & K5) & _). unfold fresh, each_triplet. cbn [t_i t_j t_index_i t_index_j t_index_k t_index_ji t_index_kj].
      rewrite HN, K1. f_equal.
      - rewrite <- Hi. apply copies_eq.
      - rewrite <- Hj. apply copies_eq.
      - rewrite <- K1. apply copies_eq.
      - rewrite <- K2. apply copies_eq.
      - rewrite <- K3. apply copies_eq.
      - rewrite <- K4. apply copies_eq.
      - rewrite <- K5. apply copies_eq. }
    rewrite E. split; [reflexivity|]. split; [repeat split; reflexivity|]. split; [exact HT|]. split; [exact HN|]. split; [cbn; lia|]. reflexivity.
Qed.
Lemma new_coherent dn n es : triplets_for n (List.length es) (dn (map (fun '(_, i, j) => (i, j)) es) n) -> coherent (batch_triplets_new dn n es).
Proof. intros H. split; [exact H|]. split; [reflexivity|]. split; [cbn; lia|]. symmetry. apply (fresh_1 (batch_triplets_new dn n es)). Qed.
Lemma after_coherent calls bt : coherent bt -> same_graph (after_calls bt calls) bt /\ coherent (after_calls bt calls).
Proof.
  revert bt. induction calls as [|b calls IH]; intros bt H; [split; [repeat split|exact H]|]. change (after_calls bt (b :: calls)) with (after_calls (fst (get_triplets bt b)) calls).
  destruct (get_triplets_eq bt b H) as (_ & (S1 & S2 & S3 & S4) & C). destruct (IH _ C) as ((T1 & T2 & T3 & T4) & C').
  split; [|exact C']. repeat split; congruence.
Qed.
Lemma fresh_same a b z : same_graph a b -> fresh a z = fresh b z.
Proof. intros (E1 & E2 & E3 & E4). unfold fresh. rewrite E1, E2, E3. reflexivity. Qed.
Lemma f_C68 dn n es calls1 calls2 b :
  triplets_for n (List.length es) (dn (map (fun '(_, i, j) => (i, j)) es) n) ->
  snd (get_triplets (after_calls (batch_triplets_new dn n es) calls1) b) = snd (get_triplets (after_calls (batch_triplets_new dn n es) calls2) b).
Proof.
  intros H. apply new_coherent in H. destruct (after_coherent calls1 _ H) as [S1 C1], (after_coherent calls2 _ H) as [S2 C2].
  destruct (get_triplets_eq _ b C1) as [-> _], (get_triplets_eq _ b C2) as [-> _]. rewrite (fresh_same _ _ _ S1), (fresh_same _ _ _ S2). reflexivity.
Qed.
Lemma f_C69 dn n es calls b :
  let ref := dn (map (fun '(_, i, j) => (i, j)) es) n in
  triplets_for n (List.length es) ref ->
  snd (get_triplets (after_calls (batch_triplets_new dn n es) calls) b) =
  if Z.leb b 0 then Err RuntimeError
  else let k := Z.to_nat b in
    Ok (mkTriplets (shifted_copies k n (t_i ref)) (shifted_copies k n (t_j ref)) (shifted_copies k n (t_index_i ref)) (shifted_copies k n (t_index_j ref))
      (shifted_copies k n (t_index_k ref)) (shifted_copies k (List.length es) (t_index_ji ref)) (shifted_copies k (List.length es) (t_index_kj ref))).
Proof.
  intros ref H. apply new_coherent in H. destruct (after_coherent calls _ H) as [S1 C1]. destruct (get_triplets_eq _ b C1) as [-> _].
  rewrite (fresh_same _ _ _ S1). reflexivity.
Qed.

(** Entries of shifted copies *)
Lemma flat_map_const_length {A B} (f : A -> list B) l m : (forall a, In a l -> List.length (f a) = m) -> List.length (flat_map f l) = (List.length l * m)%nat.
Proof. induction l as [|a l IH]; intros H; cbn; [reflexivity|]. rewrite app_length, IH by (intros; apply H; right; assumption). rewrite (H a) by (left; reflexivity). lia. Qed.
Lemma nth_error_flat_map {A B} (f : A -> list B) l m c x : (forall a, In a l -> List.length (f a) = m) -> (x < m)%nat ->
  nth_error (flat_map f l) (c * m + x) = match nth_error l c with Some a => nth_error (f a) x | None => None end.
Proof.
  revert c. induction l as [|a l IH]; intros c H Hx; cbn [flat_map].
  - destruct (c * m + x)%nat, c; reflexivity.
  - assert (Ha : List.length (f a) = m) by (apply H; left; reflexivity). destruct c as [|c].
    + cbn [Nat.mul Nat.add nth_error]. rewrite nth_error_app1 by lia. reflexivity.
    + rewrite nth_error_app2 by lia. cbn [nth_error]. rewrite <- IH; [|intros; apply H; right; assumption|exact Hx]. f_equal. lia.
Qed.
Lemma nth_error_seq s n c : nth_error (seq s n) c = if Nat.ltb c n then Some (s + c)%nat else None.
Proof.
  revert s c. induction n as [|n IH]; intros s [|c]; cbn [seq nth_error]; try reflexivity.
  - cbn. f_equal. lia.
  - rewrite IH. change (Nat.ltb (S c) (S n)) with (Nat.ltb c n). destruct (Nat.ltb c n); [f_equal; lia|reflexivity].
Qed.
Lemma f_C69_entries n step l c x v : (c < n)%nat -> nth_error l x = Some v ->
  nth_error (shifted_copies n step l) (c * List.length l + x) = Some (v + c * step)%nat.
Proof.
  intros Hc H. unfold shifted_copies. assert (Hx : (x < List.length l)%nat) by (apply nth_error_Some; congruence).
  rewrite (nth_error_flat_map _ _ (List.length l)); [|intros; apply map_length|exact Hx]. rewrite nth_error_seq. destruct (Nat.ltb_spec c n); [|lia].
  cbn. rewrite nth_error_map, H. reflexivity.
Qed.

(** * Rotations *)
Lemma norm_sq v : vnorm v * vnorm v = vnorm2 v.
Proof. apply sqrt_sqrt. apply vnorm2_nonneg. Qed.
Lemma norm_zero v : vnorm v = 0 <-> v = v0.
Proof.
  split; intros H.
  - apply vnorm2_0. rewrite <- norm_sq, H. ring.
  - subst. unfold vnorm, vnorm2. rewrite vdot_v0_l. apply sqrt_0.
Qed.
Lemma norm_pos v : v <> v0 -> 0 < vnorm v.
Proof. intros H. pose proof (sqrt_pos (vnorm2 v)) as P. fold (vnorm v) in P. destruct P as [P | P]; [exact P|]. exfalso. apply H, norm_zero. auto. Qed.
Lemma normalized_spec v : v <> v0 -> exists b, normalized v = Some b /\ v = vscale (vnorm v) b /\ vdot b b = 1.
Proof.
  intros H. pose proof (norm_pos v H) as P. unfold normalized. destruct (Reqb (vnorm v) 0) eqn:E; [apply Reqb_true in E; lra|].
  eexists. split; [reflexivity|]. split.
  - rewrite vscale_vscale. rewrite Rinv_r by lra. symmetry. apply vscale_1.
  - rewrite vdot_vscale_l, vdot_vscale_r. fold (vnorm2 v). rewrite <- norm_sq. field. lra.
Qed.
Lemma normalized_e1 : normalized (mkV 1 0 0) = Some (mkV 1 0 0).
Proof.
  destruct (normalized_spec (mkV 1 0 0)) as (b & E & H & D); [intros H; injection H; lra|]. rewrite E. f_equal. rewrite H.
  replace (vnorm (mkV 1 0 0)) with 1; [symmetry; apply vscale_1|]. unfold vnorm, vnorm2, vdot. cbn [vx vy vz]. replace (1*1+0*0+0*0) with 1 by ring. symmetry. apply sqrt_1.
Qed.
Lemma rodrigues b : vdot b b = 1 -> vx b <> -1 -> vy b * vy b + vz b * vz b <> 0 ->
  let v := vcross (mkV 1 0 0) b in let k := k_matrix v in
  madd (madd mI k) (mscale ((1 - vdot (mkV 1 0 0) b) / (vnorm v) ^ 2) (mmul k k))
  = mkM (mkV (vx b) (- vy b) (- vz b)) (mkV (vy b) (1 - vy b * vy b / (1 + vx b)) (- (vy b * vz b) / (1 + vx b)))
          (mkV (vz b) (- (vy b * vz b) / (1 + vx b)) (1 - vz b * vz b / (1 + vx b))).
Proof.
  intros D N S v k. destruct b as [x y z]. unfold vdot in D. cbn [vx vy vz] in *.
  assert (Hs : (vnorm v) ^ 2 = y * y + z * z).
  { replace (vnorm v ^ 2) with (vnorm v * vnorm v) by ring. rewrite norm_sq. unfold v, vnorm2, vdot, vcross. cbn [vx vy vz]. ring. }
  assert (H1 : 1 + x <> 0) by lra.
  assert (Hf : (1 - vdot (mkV 1 0 0) (mkV x y z)) / (vnorm v) ^ 2 = / (1 + x)).
  { rewrite Hs. assert (E : y * y + z * z = (1 - x) * (1 + x)) by lra. rewrite E in *. unfold vdot. cbn [vx vy vz]. field. split; [lra|]. intros E'. apply S. rewrite E'. ring. }
  rewrite Hf. unfold k, v, k_matrix. vunf. cbn [vx vy vz r0 r1 r2]. apply M3_eq; apply V3_eq; cbn [vx vy vz r0 r1 r2]; try (field; lra).
  apply (Rmult_eq_reg_r (1 + x)); [|lra]. field_simplify; [|lra]. nra.
Qed.
Lemma rodrigues_rotation x y z : x * x + y * y + z * z = 1 -> x <> -1 ->
  rotation3 (mkM (mkV x (- y) (- z)) (mkV y (1 - y * y / (1 + x)) (- (y * z) / (1 + x)))
          (mkV z (- (y * z) / (1 + x)) (1 - z * z / (1 + x)))).
Proof.
  intros D N. assert (H1 : 1 + x <> 0) by lra. set (u := y / (1 + x)). set (w := z / (1 + x)).
  assert (Ey : y = u * (1 + x)) by (unfold u; field; lra). assert (Ez : z = w * (1 + x)) by (unfold w; field; lra).
  assert (F : (u * u + w * w) * (1 + x) = 1 - x).
  { apply (Rmult_eq_reg_r (1 + x)); [|lra]. replace ((u * u + w * w) * (1 + x) * (1 + x)) with (u * (1 + x) * (u * (1 + x)) + w * (1 + x) * (w * (1 + x))) by ring.
    rewrite <- Ey, <- Ez. lra. }
  replace (y * y / (1 + x)) with (u * u * (1 + x)) by (unfold u; field; lra). replace (z * z / (1 + x)) with (w * w * (1 + x)) by (unfold w; field; lra).
  replace (- (y * z) / (1 + x)) with (- (u * w * (1 + x))) by (unfold u, w; field; lra).
  set (q := 1 + x) in *. assert (Ex : x = q - 1) by (unfold q; ring). clearbody q u w. subst x y z. clear D N.
  assert (P : 1 + u * u + w * w <> 0) by nra.
  assert (Q : q = 2 / (1 + u * u + w * w)) by (apply (Rmult_eq_reg_r (1 + u * u + w * w)); [|exact P]; field_simplify; [lra|exact P]).
  clear F H1. subst q. unfold rotation3. vunf. cbn [vx vy vz r0 r1 r2].
  split; [|split]; [apply M3_eq; apply V3_eq; cbn [vx vy vz r0 r1 r2]; field; exact P|apply M3_eq; apply V3_eq; cbn [vx vy vz r0 r1 r2]; field; exact P|field; exact P].
Qed.

Lemma f_C71 t : t <> v0 -> ~ opposite_to_x t ->
  exists m b, get_rotation (Some t) = Some m /\ rotation3 m /\ mulv m (mkV 1 0 0) = b /\ t = vscale (vnorm t) b /\ vdot b b = 1.
Proof.
  intros H0 Ho. destruct (normalized_spec t H0) as (b & Eb & Ht & Db). pose proof (norm_pos t H0) as P.
  assert (Nb : vx b <> -1).
  { intros E. apply Ho. destruct b as [x y z]. unfold vdot in Db. cbn [vx vy vz] in *. subst x. assert (y = 0) by nra. assert (z = 0) by nra. subst. rewrite Ht. unfold opposite_to_x, vscale. cbn [vx vy vz]. repeat split; lra. }
  unfold get_rotation. rewrite normalized_e1, Eb. set (v := vcross (mkV 1 0 0) b).
  assert (Hv : vnorm v * vnorm v = vy b * vy b + vz b * vz b) by (rewrite norm_sq; unfold v, vnorm2, vdot, vcross; cbn [vx vy vz]; ring).
  destruct (Reqb (vnorm v) 0) eqn:E.
  - apply Reqb_true in E. exists mI, b. split; [reflexivity|]. split; [unfold rotation3; vunf; cbn [vx vy vz r0 r1 r2]; split; [|split]; [apply M3_eq; apply V3_eq; cbn [vx vy vz r0 r1 r2]; ring|apply M3_eq; apply V3_eq; cbn [vx vy vz r0 r1 r2]; ring|ring]|].
    split; [|split; assumption]. destruct b as [x y z]. unfold vdot in Db. cbn [vx vy vz] in *. rewrite E in Hv. assert (y = 0) by nra. assert (z = 0) by nra. subst y z. assert (x = 1) by nra. subst x.
    vunf. cbn [vx vy vz r0 r1 r2]. apply V3_eq; cbn [vx vy vz]; ring.
  - apply Reqb_false in E. assert (Hn : vy b * vy b + vz b * vz b <> 0) by (rewrite <- Hv; nra).
    eexists. exists b. split; [reflexivity|]. pose proof (rodrigues b Db Nb Hn) as HR. cbv zeta in HR. fold v in HR. rewrite HR.
    split; [apply rodrigues_rotation; [exact Db|exact Nb]|]. split; [|split; assumption]. destruct b as [x y z]. vunf. cbn [vx vy vz r0 r1 r2]. apply V3_eq; cbn [vx vy vz]; ring.
Qed.
Lemma f_C71_opposite t : opposite_to_x t -> get_rotation (Some t) = Some mI /\ mulv mI (mkV 1 0 0) <> vscale (/ vnorm t) t.
Proof.
  intros (Hx & Hy & Hz). assert (H0 : t <> v0) by (intros ->; cbn in Hx; lra). destruct (normalized_spec t H0) as (b & Eb & Ht & Db). pose proof (norm_pos t H0) as P.
  assert (Eb' : b = mkV (-1) 0 0).
  { destruct t as [a c d], b as [x y z]. unfold vscale in Ht. cbn [vx vy vz] in *. subst c d. injection Ht as T1 T2 T3. assert (y = 0) by nra. assert (z = 0) by nra. subst y z.
    unfold vdot in Db. cbn [vx vy vz] in Db. assert (x = 1 \/ x = -1) as [-> | ->] by (assert ((x - 1) * (x + 1) = 0) by lra; apply Rmult_integral in H; lra); [lra|reflexivity]. }
  split.
  - unfold get_rotation. rewrite normalized_e1, Eb, Eb'. replace (vcross (mkV 1 0 0) (mkV (-1) 0 0)) with v0 by (apply V3_eq; cbn; ring).
    replace (vnorm v0) with 0 by (symmetry; apply norm_zero; reflexivity). destruct (Reqb 0 0) eqn:E; [reflexivity|apply Reqb_false in E; lra].
  - unfold normalized in Eb. destruct (Reqb (vnorm t) 0); [discriminate|]. injection Eb as ->. rewrite Eb'. vunf. cbn [vx vy vz r0 r1 r2]. intros E. injection E. lra.
Qed.
Lemma f_C71_zero : get_rotation (Some v0) = None /\ get_rotation None = None.
Proof.
  split; [|reflexivity]. unfold get_rotation. rewrite normalized_e1. unfold normalized. destruct (Reqb (vnorm v0) 0) eqn:E; [reflexivity|]. apply Reqb_false in E. exfalso. apply E, norm_zero. reflexivity.
Qed.
Lemma rotation_or_identity t m : get_rotation t = Some m -> rotation3 m.
Proof.
  destruct t as [t|]; [|discriminate]. intros H. assert (H0 : t <> v0) by (intros ->; rewrite (proj1 f_C71_zero) in H; discriminate).
  assert (D : opposite_to_x t \/ ~ opposite_to_x t).
  { unfold opposite_to_x. destruct (Rlt_dec (vx t) 0), (Req_EM_T (vy t) 0), (Req_EM_T (vz t) 0); tauto. }
  destruct D as [D | D].
  - destruct (f_C71_opposite t D) as [E _]. rewrite E in H. injection H as <-. unfold rotation3; vunf; cbn [vx vy vz r0 r1 r2]; split; [|split]; [apply M3_eq; apply V3_eq; cbn [vx vy vz r0 r1 r2]; ring|apply M3_eq; apply V3_eq; cbn [vx vy vz r0 r1 r2]; ring|ring].
  - destruct (f_C71 t H0 D) as (m' & b & E & R & _). rewrite E in H. injection H as <-. exact R.
Qed.

(** * The radius graph *)
Lemma in_edges lattice n positions cutoff s i j :
  In (s, i, j) (flat_map (fun s => flat_map (fun i => map (fun j => (s, i, j))
      (filter (fun j => Rleb (cart_distance lattice positions s i j) cutoff && negb (Nat.eqb i j)) (seq 0 n))) (seq 0 n)) (seq 0 (List.length lattice))) <->
  (s < List.length lattice)%nat /\ (i < n)%nat /\ (j < n)%nat /\ i <> j /\ cart_distance lattice positions s i j <= cutoff.
Proof.
  rewrite in_flat_map. split.
  - intros (s' & Hs & H). apply in_flat_map in H. destruct H as (i' & Hi & H). apply in_map_iff in H. destruct H as (j' & E & H). injection E as -> -> ->.
    apply filter_In in H. destruct H as [Hj H]. apply andb_true_iff in H. destruct H as [H1 H2]. apply Rleb_true in H1. apply negb_true_iff, Nat.eqb_neq in H2.
    apply in_seq in Hs, Hi, Hj. repeat split; try lia; assumption.
  - intros (Hs & Hi & Hj & N & H). exists s. split; [apply in_seq; lia|]. apply in_flat_map. exists i. split; [apply in_seq; lia|]. apply in_map. apply filter_In.
    split; [apply in_seq; lia|]. apply andb_true_iff. split; [apply Rleb_true; exact H|apply negb_true_iff, Nat.eqb_neq; exact N].
Qed.
Lemma half_vector_eq L p i j v : half_cell_vector L p i j v ->
  v = vmul (vmap wrapd (vsub (nth j p v0) (nth i p v0))) L.
Proof.
  intros (a & b & d & Ha & Hb & Hd & ->). rewrite (nth_error_nth _ _ _ Ha), (nth_error_nth _ _ _ Hb). f_equal.
  destruct Hd as (D1 & D2 & D3). apply V3_eq; cbn; apply wrapd_unique; assumption.
Qed.
Lemma half_vector_exists L p i j : (i < List.length p)%nat -> (j < List.length p)%nat ->
  half_cell_vector L p i j (vmul (vmap wrapd (vsub (nth j p v0) (nth i p v0))) L).
Proof.
  intros Hi Hj. exists (nth i p v0), (nth j p v0), (vmap wrapd (vsub (nth j p v0) (nth i p v0))). rewrite !nth_error_nth' with (d := v0) by assumption.
  split; [reflexivity|]. split; [reflexivity|]. split; [|reflexivity]. repeat split; cbn; apply wrapd_image.
Qed.
Lemma distance_norm lattice positions s i j : cart_distance lattice positions s i j = vnorm (cart_displacement lattice positions s i j).
Proof. unfold cart_distance, vnorm, vnorm2, vdot. f_equal. ring. Qed.
