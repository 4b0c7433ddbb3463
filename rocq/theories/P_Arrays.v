(** Proofs about arrays of any shape. *)
From Coq Require Import ZArith Reals Bool Arith List Lia Lra.
From Verif Require Import Base LinAlg M_Validate M_Text M_Poscar M_Outcar M_Vasprun M_Dataset M_StructUtils M_Arrays
  S_Lattice S_Dataset S_Arrays P_StructUtils P_Outcar2.
Import ListNotations.
Local Open Scope nat_scope.

(** * Row-major order *)
Lemma ravel_offset s i : ravel s i = offset s i.
Proof. revert i. induction s as [|d s IH]; intros [|x i]; cbn; auto. Qed.
Lemma unravel_lt s : forall k, k < prod_list s -> Forall2 lt (unravel s k) s.
Proof.
  induction s as [|d s IH]; intros k H; cbn [unravel]; [constructor|]. change (prod_list (d :: s)) with (d * prod_list s) in H.
  assert (prod_list s <> 0) by (intros E; rewrite E in H; lia).
  constructor; [apply Nat.div_lt_upper_bound; lia|]. apply IH. apply Nat.mod_upper_bound. auto.
Qed.
Lemma offset_unravel s : forall k, k < prod_list s -> offset s (unravel s k) = k.
Proof.
  induction s as [|d s IH]; intros k H; cbn [unravel offset]; [cbn in H; lia|]. change (prod_list (d :: s)) with (d * prod_list s) in H.
  assert (prod_list s <> 0) by (intros E; rewrite E in H; lia).
  rewrite IH by (apply Nat.mod_upper_bound; auto). rewrite (Nat.div_mod k (prod_list s)) at 3 by auto. lia.
Qed.
Lemma offset_lt s : forall idx, Forall2 lt idx s -> offset s idx < prod_list s.
Proof.
  induction s as [|d s IH]; intros idx H; inversion H as [|i ? idx' ? Hi Hs]; subst; [cbn; lia|]. cbn [offset].
  change (prod_list (d :: s)) with (d * prod_list s). specialize (IH _ Hs).
  assert (S i * prod_list s <= d * prod_list s) by (apply Nat.mul_le_mono_r; lia). cbn in H0. lia.
Qed.
Lemma unravel_offset s : forall idx, Forall2 lt idx s -> unravel s (offset s idx) = idx.
Proof.
  induction s as [|d s IH]; intros idx H; inversion H as [|i ? idx' ? Hi Hs]; subst; [reflexivity|]. cbn [offset unravel].
  pose proof (offset_lt _ _ Hs) as L.
  replace ((i * prod_list s + offset s idx') / prod_list s) with i by (rewrite Nat.div_add_l by lia; rewrite Nat.div_small by exact L; lia).
  replace ((i * prod_list s + offset s idx') mod prod_list s) with (offset s idx'); [rewrite IH; auto|].
  rewrite Nat.add_comm, Nat.mod_add by lia. symmetry. apply Nat.mod_small. exact L.
Qed.
Lemma tabulated_wf s f : narr_wf (tabulated s f).
Proof. unfold narr_wf, tabulated. cbn [na_data na_shape]. rewrite map_length, seq_length. reflexivity. Qed.
Lemma tabulated_entry s f idx : Forall2 lt idx s -> entry (tabulated s f) idx (f idx).
Proof.
  intros H. split; [exact H|]. unfold tabulated. cbn [na_data na_shape]. pose proof (offset_lt _ _ H) as L.
  rewrite nth_error_map. rewrite (nth_error_nth' (seq 0 (prod_list s)) 0) by (rewrite seq_length; exact L).
  rewrite seq_nth by exact L. cbn [option_map Nat.add]. rewrite unravel_offset by exact H. reflexivity.
Qed.
Lemma get_entry a idx : narr_wf a -> Forall2 lt idx (na_shape a) -> entry a idx (get a idx).
Proof.
  intros W H. split; [exact H|]. unfold get; change ravel with offset. apply nth_error_nth'. rewrite W. apply offset_lt. exact H.
Qed.
Lemma entry_get a idx x : entry a idx x -> x = get a idx.
Proof. intros [_ H]. unfold get; change ravel with offset. symmetry. apply nth_error_nth. exact H. Qed.
Lemma entry_unique a idx x y : entry a idx x -> entry a idx y -> x = y.
Proof. intros [_ H] [_ H']. congruence. Qed.
Lemma map_entries_wf f a : narr_wf a -> narr_wf (map_entries f a).
Proof. unfold narr_wf, map_entries. cbn. rewrite map_length. auto. Qed.
Lemma map_entries_entry f a idx x : entry a idx x -> entry (map_entries f a) idx (f x).
Proof. intros [A B]. split; [exact A|]. unfold map_entries. cbn [na_data na_shape]. rewrite nth_error_map, B. reflexivity. Qed.
Lemma map_entries_get f a idx : narr_wf a -> Forall2 lt idx (na_shape a) -> get (map_entries f a) idx = f (get a idx).
Proof. intros W H. symmetry. apply entry_get. apply map_entries_entry. apply get_entry; auto. Qed.

(** * Broadcasting *)
Definition ax (l : list nat) (k : nat) : nat := nth k l 1.
Definition agree (s t r : list nat) : Prop :=
  List.length r = Nat.max (List.length s) (List.length t) /\
  forall k, k < List.length r -> (ax s k = ax t k \/ ax s k = 1 \/ ax t k = 1) /\ ax r k = if ax s k =? 1 then ax t k else ax s k.
Lemma ax_nil k : ax [] k = 1. Proof. destruct k; reflexivity. Qed.
Lemma ax_ext l m : List.length l = List.length m -> (forall k, k < List.length l -> ax l k = ax m k) -> l = m.
Proof. intros L H. apply (nth_ext l m 1 1); auto. Qed.
Lemma agree_nil_l t r : agree [] t r <-> r = t.
Proof.
  split.
  - intros [L H]. cbn [List.length Nat.max] in L. apply ax_ext; [exact L|]. intros k K. destruct (H k K) as [_ E]. rewrite ax_nil in E. exact E.
  - intros ->. split; [reflexivity|]. intros k K. rewrite ax_nil. auto.
Qed.
Lemma agree_nil_r s r : agree s [] r <-> r = s.
Proof.
  split.
  - intros [L H]. rewrite Nat.max_0_r in L. apply ax_ext; [exact L|]. intros k K. destruct (H k K) as [_ E]. rewrite ax_nil in E.
    destruct (ax s k =? 1) eqn:Q; [apply Nat.eqb_eq in Q; lia|exact E].
  - intros ->. split; [cbn; lia|]. intros k K. rewrite ax_nil. split; [auto|]. destruct (ax s k =? 1) eqn:Q; [apply Nat.eqb_eq in Q; exact Q|reflexivity].
Qed.
Lemma agree_cons a s b t c r : agree (a :: s) (b :: t) (c :: r) <-> (a = b \/ a = 1 \/ b = 1) /\ c = (if a =? 1 then b else a) /\ agree s t r.
Proof.
  unfold agree. split.
  - intros [L H]. destruct (H 0) as [A B]; [cbn; lia|]. cbn in A, B. split; [exact A|]. split; [exact B|]. split; [cbn in L; lia|].
    intros k K. apply (H (S k)). cbn. lia.
  - intros (A & B & L & H). split; [cbn; lia|]. intros [|k] K; [cbn; auto|]. apply (H k). cbn in K. lia.
Qed.
Lemma bshape_agree : forall s t r, bshape_rev s t = Some r <-> agree s t r.
Proof.
  induction s as [|a s IH]; intros t r; cbn [bshape_rev].
  - rewrite agree_nil_l. split; congruence.
  - destruct t as [|b t]; [rewrite agree_nil_r; split; congruence|]. destruct r as [|c r].
    + split; [|intros [L _]; cbn in L; lia]. destruct (bshape_rev s t); [|discriminate]. destruct (a =? b); [discriminate|]. destruct (a =? 1); [discriminate|]. destruct (b =? 1); discriminate.
    + rewrite agree_cons. split.
      * destruct (bshape_rev s t) as [q|] eqn:Q; [|discriminate]. apply IH in Q. destruct (a =? b) eqn:AB; [apply Nat.eqb_eq in AB; subst b|apply Nat.eqb_neq in AB].
        -- intros X. injection X as <- <-. split; [auto|]. split; [destruct (a =? 1); reflexivity|exact Q].
        -- destruct (a =? 1) eqn:A1; [apply Nat.eqb_eq in A1|].
           ++ intros X. injection X as <- <-. auto.
           ++ destruct (b =? 1) eqn:B1; [apply Nat.eqb_eq in B1|discriminate]. intros X. injection X as <- <-. auto.
      * intros (A & -> & H). apply IH in H. rewrite H. destruct (a =? b) eqn:AB; [apply Nat.eqb_eq in AB; subst b; destruct (a =? 1); reflexivity|]. apply Nat.eqb_neq in AB.
        destruct (a =? 1) eqn:A1; [reflexivity|]. apply Nat.eqb_neq in A1. destruct A as [A|[A|A]]; [lia|lia|]. subst b. reflexivity.
Qed.
Lemma broadcast_shapes_spec s t out : broadcast_shapes s t = Some out <-> broadcasts s t out.
Proof.
  assert (E : broadcasts s t out <-> agree (rev s) (rev t) (rev out)).
  { unfold broadcasts, agree, axis, ax. rewrite !rev_length. reflexivity. }
  rewrite E, <- bshape_agree. unfold broadcast_shapes. destruct (bshape_rev (rev s) (rev t)) as [r|]; cbn; split; try discriminate.
  - intros H. injection H as <-. rewrite rev_involutive. reflexivity.
  - intros H. injection H as ->. rewrite rev_involutive. reflexivity.
Qed.
Definition src (d i : nat) : nat := if d =? 1 then 0 else i.
Lemma src_lt d i e : i < e -> d = e \/ d = 1 -> src d i < d.
Proof. unfold src. intros H [->| ->]; [destruct (e =? 1); lia|cbn; lia]. Qed.
Lemma src_self s : forall i, Forall2 lt i s -> Forall2 lt (map2 src s i) s.
Proof. induction s as [|d s IH]; intros i H; inversion H; subst; cbn [map2]; constructor; auto. eapply src_lt; eauto. Qed.
Lemma src_left : forall s t r i, agree s t r -> Forall2 lt i r -> Forall2 lt (map2 src s i) s.
Proof.
  induction s as [|a s IH]; intros t r i A H; [constructor|]. destruct t as [|b t].
  - apply agree_nil_r in A. subst r. apply src_self. exact H.
  - destruct r as [|c r]; [destruct A as [L _]; cbn in L; lia|]. apply agree_cons in A as (AB & -> & A). inversion H as [|x ? i' ? Hx Hi]; subst. cbn [map2].
    constructor; [|eapply IH; eauto]. apply (src_lt a x _ Hx). destruct (a =? 1) eqn:A1; [apply Nat.eqb_eq in A1; auto|auto].
Qed.
Lemma src_right : forall s t r i, agree s t r -> Forall2 lt i r -> Forall2 lt (map2 src t i) t.
Proof.
  induction s as [|a s IH]; intros t r i A H.
  - apply agree_nil_l in A. subst r. apply src_self. exact H.
  - destruct t as [|b t]; [constructor|]. destruct r as [|c r]; [destruct A as [L _]; cbn in L; lia|]. apply agree_cons in A as (AB & -> & A). inversion H as [|x ? i' ? Hx Hi]; subst. cbn [map2].
    constructor; [|eapply IH; eauto]. apply (src_lt b x _ Hx). destruct (a =? 1) eqn:A1; [auto|]. apply Nat.eqb_neq in A1. lia.
Qed.
Lemma Forall2_rev {A B} (R : A -> B -> Prop) l m : Forall2 R l m -> Forall2 R (rev l) (rev m).
Proof. induction 1; cbn; [constructor|]. apply Forall2_app; auto. Qed.
Lemma broadcasts_agree s t out : broadcasts s t out -> agree (rev s) (rev t) (rev out).
Proof. unfold broadcasts, agree, axis, ax. rewrite !rev_length. auto. Qed.
Lemma source_left s t out idx : broadcasts s t out -> Forall2 lt idx out -> Forall2 lt (source s idx) s.
Proof.
  intros B H. apply broadcasts_agree in B. apply Forall2_rev in H. pose proof (src_left _ _ _ _ B H) as X. apply Forall2_rev in X. rewrite rev_involutive in X. exact X.
Qed.
Lemma source_right s t out idx : broadcasts s t out -> Forall2 lt idx out -> Forall2 lt (source t idx) t.
Proof.
  intros B H. apply broadcasts_agree in B. apply Forall2_rev in H. pose proof (src_right _ _ _ _ B H) as X. apply Forall2_rev in X. rewrite rev_involutive in X. exact X.
Qed.
Lemma source_supplies s idx : List.length s <= List.length idx -> supplies s (source s idx) idx.
Proof.
  intros L. unfold supplies, source. rewrite rev_length, map2_length, !rev_length. split; [lia|]. intros k K. rewrite rev_involutive.
  rewrite (map2_nth _ _ _ k 1 0) by (rewrite !rev_length; lia). reflexivity.
Qed.
Lemma elementwise_ok f a b c : narr_wf a -> narr_wf b -> elementwise f a b = Ok c -> combined (fun x y z => z = f x y) a b c.
Proof.
  intros Wa Wb H. unfold elementwise in H. destruct (broadcast_shapes _ _) as [s|] eqn:E; [|discriminate]. injection H as <-. apply broadcast_shapes_spec in E.
  split; [apply tabulated_wf|]. split; [exact E|]. cbn [na_shape tabulated]. intros idx I. pose proof (f2len I) as L. pose proof (proj1 E) as LE.
  exists (source (na_shape a) idx), (source (na_shape b) idx), (get a (source (na_shape a) idx)), (get b (source (na_shape b) idx)).
  eexists. split; [apply source_supplies; lia|]. split; [apply source_supplies; lia|].
  split; [apply get_entry; [exact Wa|eapply source_left; eauto]|]. split; [apply get_entry; [exact Wb|eapply source_right; eauto]|].
  split; [apply tabulated_entry; exact I|reflexivity].
Qed.
Lemma elementwise_accepts f a b : (exists out, broadcasts (na_shape a) (na_shape b) out) -> exists c, elementwise f a b = Ok c.
Proof. intros (out & H). apply broadcast_shapes_spec in H. unfold elementwise. rewrite H. eauto. Qed.
Lemma elementwise_rejects f a b : (~ exists out, broadcasts (na_shape a) (na_shape b) out) -> elementwise f a b = Err ValueError.
Proof.
  intros H. unfold elementwise. destruct (broadcast_shapes _ _) as [s|] eqn:E; [|reflexivity]. exfalso. apply H. exists s. apply broadcast_shapes_spec. exact E.
Qed.

(** * The functions *)
Lemma wrap_num_to x : wrapped_to cell_image x (wrap_num x).
Proof. destruct x; cbn; auto. eexists. split; [reflexivity|apply wrap_image]. Qed.
Lemma wrapd_num_to x : wrapped_to half_image x (wrapd_num x).
Proof. destruct x; cbn; auto. eexists. split; [reflexivity|apply wrapd_image]. Qed.
Lemma f_C01_any a : na_shape (apply_pbc_array a) = na_shape a /\ Forall2 (wrapped_to cell_image) (na_data a) (na_data (apply_pbc_array a)).
Proof. split; [reflexivity|]. cbn. induction (na_data a); cbn; constructor; auto. apply wrap_num_to. Qed.
Lemma f_C02_any a : na_shape (apply_pbc_displacement_array a) = na_shape a /\ Forall2 (wrapped_to half_image) (na_data a) (na_data (apply_pbc_displacement_array a)).
Proof. split; [reflexivity|]. cbn. induction (na_data a); cbn; constructor; auto. apply wrapd_num_to. Qed.
Lemma entry_map_inv f a idx x : entry (map_entries f a) idx x -> exists y, entry a idx y /\ x = f y.
Proof.
  intros [A B]. unfold map_entries in *. cbn [na_data na_shape] in *. rewrite nth_error_map in B. destruct (nth_error (na_data a) _) as [y|] eqn:E; [|discriminate].
  injection B as <-. exists y. split; [split; auto|reflexivity].
Qed.
Lemma combined_map (rel rel' : num -> num -> num -> Prop) f g h a b c :
  combined rel (map_entries f a) (map_entries g b) c -> (forall x y z, rel (f x) (g y) z -> rel' x y (h z)) -> combined rel' a b (map_entries h c).
Proof.
  intros (W & B & H) R. split; [apply map_entries_wf; exact W|]. split; [exact B|]. intros idx I. destruct (H idx I) as (i & j & x & y & z & S1 & S2 & E1 & E2 & E3 & Q).
  apply entry_map_inv in E1 as (x' & E1 & ->). apply entry_map_inv in E2 as (y' & E2 & ->).
  exists i, j, x', y', (h z). split; [exact S1|]. split; [exact S2|]. split; [exact E1|]. split; [exact E2|]. split; [apply map_entries_entry; exact E3|]. apply R. exact Q.
Qed.
Lemma lt1 i n : i < n -> Forall2 lt [i] [n].
Proof. intros. apply Forall2_cons; auto. Qed.
Lemma lt2 i j n m : i < n -> j < m -> Forall2 lt [i; j] [n; m].
Proof. intros. apply Forall2_cons; auto. Qed.
Lemma axis_comm a b : a = b \/ a = 1 \/ b = 1 -> (if a =? 1 then b else a) = (if b =? 1 then a else b).
Proof. intros H. destruct (Nat.eqb_spec a 1); destruct (Nat.eqb_spec b 1); lia. Qed.
Lemma combined_swap rel a b c : combined rel a b c -> combined (fun x y z => rel y x z) b a c.
Proof.
  intros (W & [L B] & H). split; [exact W|]. split.
  - split; [lia|]. intros k K. destruct (B k K) as [A E]. split; [destruct A as [A|[A|A]]; auto|]. rewrite E. apply axis_comm. exact A.
  - intros idx I. destruct (H idx I) as (i & j & x & y & z & S1 & S2 & E1 & E2 & E3 & Q). exists j, i, y, x, z. auto 10.
Qed.
Lemma cell_image_sum a b r u v : congr1 a u -> congr1 b v -> cell_image (u + v) r -> cell_image (a + b) r.
Proof.
  intros [k K] [l M] [[m Q] D]. split; [|exact D]. exists (k + l + m)%Z. rewrite !plus_IZR. lra.
Qed.
Lemma half_image_diff a b r u v : congr1 a u -> congr1 b v -> half_image (u - v) r -> half_image (a - b) r.
Proof.
  intros [k K] [l M] [[m Q] D]. split; [|exact D]. exists (k - l + m)%Z. rewrite plus_IZR, minus_IZR. lra.
Qed.
Lemma displaced_ok x y : displaced_to x y (wrap_num (num_add (wrap_num x) (wrapd_num y))).
Proof.
  destruct x as [a| |]; [|destruct y; reflexivity|destruct y; reflexivity]. destruct y as [b| |]; cbn; try reflexivity. eexists. split; [reflexivity|].
  eapply cell_image_sum; [apply wrap_image|apply wrapd_image|apply wrap_image].
Qed.
Lemma measured_ok x y : measured_to x y (wrapd_num (num_sub (wrap_num y) (wrap_num x))).
Proof.
  destruct x as [a| |]; destruct y as [b| |]; cbn; try reflexivity. eexists. split; [reflexivity|]. change (wrap b + - wrap a)%R with (wrap b - wrap a)%R.
  eapply half_image_diff; [apply wrap_image|apply wrap_image|apply wrapd_image].
Qed.
Lemma f_C03_displace p d : narr_wf p -> narr_wf d ->
  ((exists out, broadcasts (na_shape p) (na_shape d) out) -> exists q, displace_positions_array p d = Ok q /\ combined displaced_to p d q) /\
  ((~ exists out, broadcasts (na_shape p) (na_shape d) out) -> displace_positions_array p d = Err ValueError).
Proof.
  intros Wp Wd. unfold displace_positions_array. split; intros H.
  - destruct (elementwise_accepts num_add (apply_pbc_array p) (apply_pbc_displacement_array d) H) as (c & E). rewrite E. eexists. split; [reflexivity|].
    apply elementwise_ok in E; [|apply map_entries_wf; assumption|apply map_entries_wf; assumption].
    eapply combined_map; [exact E|]. cbv beta. intros x y z ->. apply displaced_ok.
  - rewrite elementwise_rejects; [reflexivity|exact H].
Qed.
Lemma broadcasts_comm s t out : broadcasts s t out -> broadcasts t s out.
Proof.
  intros [L B]. split; [lia|]. intros k K. destruct (B k K) as [A E]. split; [destruct A as [A|[A|A]]; auto|]. rewrite E. apply axis_comm. exact A.
Qed.
Lemma f_C03_measure p q : narr_wf p -> narr_wf q ->
  ((exists out, broadcasts (na_shape p) (na_shape q) out) -> exists d, calc_displacement_array p q = Ok d /\ combined measured_to p q d) /\
  ((~ exists out, broadcasts (na_shape p) (na_shape q) out) -> calc_displacement_array p q = Err ValueError).
Proof.
  intros Wp Wq. unfold calc_displacement_array. split; intros H.
  - destruct (elementwise_accepts num_sub (apply_pbc_array q) (apply_pbc_array p)) as (c & E); [destruct H as (o & H); exists o; apply broadcasts_comm; exact H|].
    rewrite E. eexists. split; [reflexivity|].
    apply elementwise_ok in E; [|apply map_entries_wf; assumption|apply map_entries_wf; assumption].
    apply combined_swap in E. eapply combined_map; [exact E|]. cbv beta. intros x y z ->. apply measured_ok.
  - rewrite elementwise_rejects; [reflexivity|]. intros (o & B). apply H. exists o. apply broadcasts_comm. exact B.
Qed.

(** * Matrix products and transform_positions *)
Lemma verify_positions_array_ok a : verify_positions_array a = Ok tt <-> (exists n, na_shape a = [n; 3]) /\ within_cell a.
Proof.
  unfold verify_positions_array, verify_ndarray_shape. split.
  - destruct (na_shape a) as [|n [|m [|q s]]]; cbn; try discriminate. destruct m as [|[|[|[|m]]]]; cbn; try discriminate.
    destruct (existsb _ (na_data a)) eqn:E; [discriminate|]. intros _. split; [eauto|]. unfold within_cell. apply Forall_forall. intros x I.
    assert (X : num_lt x 0 || num_gt x 1 = false).
    { destruct (num_lt x 0 || num_gt x 1) eqn:Q; [|reflexivity]. rewrite <- E. symmetry. apply existsb_exists. exists x. auto. }
    apply orb_false_iff in X as [X1 X2]. destruct x as [r|[]|]; cbn in X1, X2; try discriminate; auto.
    apply Rltb_false in X1. apply Rltb_false in X2. lra.
  - intros [[n E] W]. rewrite E. cbn. replace (existsb _ (na_data a)) with false; [reflexivity|]. symmetry. apply not_true_is_false. intros X. apply existsb_exists in X as (x & I & X).
    unfold within_cell in W. rewrite Forall_forall in W. specialize (W x I). destruct x as [r|b|]; cbn in X; [|exact W|discriminate].
    apply orb_true_iff in X as [X|X]; apply Rltb_true in X; lra.
Qed.
Lemma verify_positions_array_err a e : verify_positions_array a = Err e -> e = ValueError.
Proof.
  unfold verify_positions_array, verify_ndarray_shape. destruct (negb _); cbn; [congruence|]. destruct (dims_match _ _); cbn; [|congruence]. destruct (existsb _ _); congruence.
Qed.
Lemma matmul_accepts a r n : na_shape a = [n; 3] -> forall s, product_shape n (na_shape r) s -> exists c, matmul a r = Ok c /\ na_shape c = s /\ narr_wf c.
Proof.
  intros Ea s P. unfold matmul. rewrite Ea. cbn [hd]. inversion P as [H1 H2|b m H1 H2].
  - cbn [rev app]. eexists. split; [reflexivity|]. split; [reflexivity|apply tabulated_wf].
  - rewrite rev_app_distr. cbn [rev app]. rewrite Nat.eqb_refl, rev_involutive. eexists. split; [reflexivity|]. split; [reflexivity|apply tabulated_wf].
Qed.
Lemma matmul_rejects a r n : na_shape a = [n; 3] -> (~ exists s, product_shape n (na_shape r) s) -> matmul a r = Err ValueError.
Proof.
  intros Ea H. unfold matmul. rewrite Ea. cbn [hd]. destruct (rev (na_shape r)) as [|m [|k b]] eqn:E; [reflexivity| |]; (rewrite <- (rev_involutive (na_shape r)), E in H; cbn [rev app] in H).
  - destruct (m =? 3) eqn:Q; [|reflexivity]. apply Nat.eqb_eq in Q. subst m. exfalso. apply H. eexists. constructor.
  - destruct (k =? 3) eqn:Q; [|reflexivity]. apply Nat.eqb_eq in Q. subst k. exfalso. apply H. rewrite <- app_assoc. cbn [app]. eexists. constructor.
Qed.
Lemma two_last {A} (l : list A) : 2 <= List.length l -> exists b i j, l = b ++ [i; j].
Proof.
  intros L. destruct (rev l) as [|j [|i b]] eqn:E; try (apply (f_equal (@List.length A)) in E; rewrite rev_length in E; cbn in E; lia).
  exists (rev b), i, j. rewrite <- (rev_involutive l), E. cbn. rewrite <- app_assoc. reflexivity.
Qed.
Lemma Forall2_app_split {A B} (R : A -> B -> Prop) l1 l2 m1 m2 : List.length l1 = List.length m1 -> Forall2 R (l1 ++ l2) (m1 ++ m2) -> Forall2 R l1 m1 /\ Forall2 R l2 m2.
Proof.
  revert m1. induction l1 as [|x l1 IH]; intros [|y m1] L H; cbn in L; try lia; [split; [constructor|exact H]|]. cbn in H. inversion H; subst.
  destruct (IH m1) as [X Y]; [lia|assumption|]. split; [constructor; auto|exact Y].
Qed.
Lemma fin_of a idx : narr_wf a -> finite_array a -> Forall2 lt idx (na_shape a) -> exists x, entry a idx (Fin x).
Proof.
  intros W F H. pose proof (get_entry _ _ W H) as E. destruct E as [_ N]. pose proof (nth_error_In _ _ N) as I. unfold finite_array in F. rewrite Forall_forall in F. destruct (F _ I) as (x & X).
  exists x. split; [exact H|]. rewrite N, X. reflexivity.
Qed.
Lemma dot3_fin a r i at_ (x b : nat -> R) : (forall l, l < 3 -> get a [i; l] = Fin (x l)) -> (forall l, l < 3 -> get r (at_ l) = Fin (b l)) ->
  dot3 a r i at_ = Fin (x 0%nat * b 0%nat + x 1%nat * b 1%nat + x 2%nat * b 2%nat)%R.
Proof. intros A B. unfold dot3. rewrite !A, !B by lia. reflexivity. Qed.
Lemma choose3 {A} (P : nat -> A -> Prop) (d : A) : (forall l, l < 3 -> exists x, P l x) -> exists f, forall l, l < 3 -> P l (f l).
Proof.
  intros H. destruct (H 0) as (x & X); [lia|]. destruct (H 1) as (y & Y); [lia|]. destruct (H 2) as (z & Z); [lia|].
  exists (fun l => match l with 0 => x | 1 => y | _ => z end). intros [|[|[|l]]] L; auto; lia.
Qed.
Lemma matmul_entry p r n c : narr_wf p -> narr_wf r -> finite_array p -> finite_array r -> na_shape p = [n; 3] -> matmul (apply_pbc_array p) r = Ok c ->
  forall idx, Forall2 lt idx (na_shape c) -> exists y, entry c idx (Fin y) /\ product_entry p r idx y.
Proof.
  intros Wp Wr Fp Fr Ep H idx I.
  assert (PR : forall i, i < n -> exists x a : nat -> R, forall l, l < 3 -> entry p [i; l] (Fin (x l)) /\ cell_image (x l) (a l) /\ get (apply_pbc_array p) [i; l] = Fin (a l)).
  { intros i Hi. assert (V : forall l, l < 3 -> Forall2 lt [i; l] (na_shape p)) by (intros l L; rewrite Ep; apply lt2; auto).
    destruct (choose3 (fun l x => entry p [i; l] (Fin x)) 0%R) as (x & X); [intros l L; apply fin_of; auto|].
    exists x, (fun l => wrap (x l)). intros l L. split; [auto|]. split; [apply wrap_image|]. unfold apply_pbc_array. rewrite map_entries_get by auto. rewrite <- (entry_get _ _ _ (X l L)). reflexivity. }
  assert (RR : forall at_, (forall l, l < 3 -> Forall2 lt (at_ l) (na_shape r)) -> exists b : nat -> R, forall l, l < 3 -> entry r (at_ l) (Fin (b l)) /\ get r (at_ l) = Fin (b l)).
  { intros at_ V. destruct (choose3 (fun l x => entry r (at_ l) (Fin x)) 0%R) as (b & B); [intros l L; apply fin_of; auto|]. exists b. intros l L. split; [auto|]. symmetry. apply entry_get. auto. }
  unfold matmul in H. change (na_shape (apply_pbc_array p)) with (na_shape p) in H. rewrite Ep in H. cbn [hd] in H.
  destruct (rev (na_shape r)) as [|m [|k b]] eqn:E; [discriminate| |].
  - destruct (m =? 3) eqn:Q; [|discriminate]. apply Nat.eqb_eq in Q. subst m. injection H as <-. cbn [na_shape tabulated] in I. inversion I as [|i ? idx' ? Hi Hn]; subst. inversion Hn; subst.
    assert (Er : na_shape r = [3]) by (rewrite <- (rev_involutive (na_shape r)), E; reflexivity).
    destruct (PR i Hi) as (x & a & X). destruct (RR (fun l => [l])) as (c & C); [intros l L; rewrite Er; apply lt1; auto|].
    exists (a 0%nat * c 0%nat + a 1%nat * c 1%nat + a 2%nat * c 2%nat)%R. split.
    + rewrite <- (dot3_fin (apply_pbc_array p) r i (fun l => [l]) a c); [|intros l L; apply X; exact L|intros l L; apply C; exact L].
      apply (tabulated_entry [n] (fun idx => dot3 (apply_pbc_array p) r (hd 0 idx) (fun l => [l])) [i] I).
    + exists i, (fun l => [l]), a, c. rewrite Er. split; [constructor|]. split; [intros l L; exists (x l); split; apply X; exact L|]. split; [intros l L; apply C; exact L|reflexivity].
  - destruct (k =? 3) eqn:Q; [|discriminate]. apply Nat.eqb_eq in Q. subst k. injection H as <-. cbn [na_shape tabulated] in I.
    assert (Er : na_shape r = rev b ++ [3; m]) by (rewrite <- (rev_involutive (na_shape r)), E; cbn; rewrite <- app_assoc; reflexivity).
    pose proof (f2len I) as L0. rewrite app_length in L0. cbn in L0. destruct (two_last idx) as (c & i & j & ->); [lia|]. rewrite app_length in L0. cbn in L0.
    assert (Lc : List.length c = List.length (rev b)) by lia. destruct (Forall2_app_split _ _ _ _ _ Lc I) as [I1 I2]. inversion I2 as [|? ? ? ? Hi I3]; subst. inversion I3 as [|? ? ? ? Hj _]; subst.
    destruct (PR i Hi) as (x & a & X). destruct (RR (fun l => c ++ [l; j])) as (q & C); [intros l L; rewrite Er; apply Forall2_app; [exact I1|apply lt2; auto]|].
    exists (a 0%nat * q 0%nat + a 1%nat * q 1%nat + a 2%nat * q 2%nat)%R. split.
    + rewrite <- (dot3_fin (apply_pbc_array p) r i (fun l => c ++ [l; j]) a q); [|intros l L; apply X; exact L|intros l L; apply C; exact L].
      pose proof (tabulated_entry _ (fun idx => match rev idx with j :: i :: b => dot3 (apply_pbc_array p) r i (fun l => rev b ++ [l; j]) | _ => NaN end) _ I) as T.
      cbv beta in T. rewrite rev_app_distr in T. cbn [rev app] in T. rewrite rev_involutive in T. exact T.
    + exists i, (fun l => c ++ [l; j]), a, q. rewrite Er. split; [constructor; exact Lc|]. split; [intros l L; exists (x l); split; apply X; exact L|]. split; [intros l L; apply C; exact L|reflexivity].
Qed.
Lemma product_shape_unique n s a b : product_shape n s a -> product_shape n s b -> a = b.
Proof.
  destruct 1 as [|b1 m1]; inversion 1 as [|b2 m2 E]; subst; auto.
  - destruct b2 as [|x [|y b2]]; cbn in *; try discriminate; congruence.
  - destruct b1 as [|x [|y b1]]; discriminate.
  - apply (f_equal (@rev nat)) in E. rewrite !rev_app_distr in E. cbn in E. injection E as -> E. apply (f_equal (@rev nat)) in E. rewrite !rev_involutive in E. subst. reflexivity.
Qed.
Lemma product_dec n s : (exists q, product_shape n s q) \/ ~ exists q, product_shape n s q.
Proof.
  destruct (rev s) as [|m [|k b]] eqn:E; apply (f_equal (@rev nat)) in E; rewrite rev_involutive in E; cbn [rev app] in E; subst s.
  - right. intros (q & H). inversion H as [|b m E]. destruct b; discriminate.
  - destruct (Nat.eq_dec m 3) as [->|N]; [left; eexists; constructor|right]. intros (q & H). inversion H as [E|b k E]; [lia|]. destruct b as [|x [|y b]]; discriminate.
  - rewrite <- app_assoc. cbn [app]. destruct (Nat.eq_dec k 3) as [->|N]; [left; eexists; constructor|right]. intros (q & H). inversion H as [E|c j E].
    + destruct (rev b) as [|x [|y c]]; discriminate.
    + apply (f_equal (@rev nat)) in E. rewrite !rev_app_distr in E. cbn in E. injection E as _ E. lia.
Qed.
Lemma broadcasts_dec s t : (exists out, broadcasts s t out) \/ ~ exists out, broadcasts s t out.
Proof. destruct (broadcast_shapes s t) as [o|] eqn:E; [left; exists o; apply broadcast_shapes_spec; exact E|right]. intros (o & H). apply broadcast_shapes_spec in H. congruence. Qed.
Lemma f_C06_accepts p r t : narr_wf p -> narr_wf r -> narr_wf t ->
  (accepted p r t -> exists q, transform_positions_array p r t = Ok q) /\ (~ accepted p r t -> transform_positions_array p r t = Err ValueError).
Proof.
  intros Wp Wr Wt. unfold transform_positions_array. split.
  - intros (n & s & out & Ep & C & P & B). assert (V : verify_positions_array p = Ok tt) by (apply verify_positions_array_ok; eauto). rewrite V. cbn.
    destruct (matmul_accepts (apply_pbc_array p) r n Ep s P) as (c & M & Es & Wc). rewrite M. cbn.
    destruct (f_C03_displace (apply_pbc_array c) t) as [D _]; [apply map_entries_wf; exact Wc|exact Wt|]. destruct D as (q & D & _); [|eauto].
    exists out. change (na_shape (apply_pbc_array c)) with (na_shape c). rewrite Es. exact B.
  - intros N. destruct (verify_positions_array p) as [[]|e] eqn:V; [|apply verify_positions_array_err in V; subst e; reflexivity]. cbn.
    apply verify_positions_array_ok in V as [[n Ep] C]. destruct (product_dec n (na_shape r)) as [(s & P)|NP].
    + destruct (matmul_accepts (apply_pbc_array p) r n Ep s P) as (c & M & Es & Wc). rewrite M. cbn.
      destruct (f_C03_displace (apply_pbc_array c) t) as [_ D]; [apply map_entries_wf; exact Wc|exact Wt|]. apply D. intros (out & B). apply N.
      change (na_shape (apply_pbc_array c)) with (na_shape c) in B. rewrite Es in B. exists n, s, out. auto.
    + rewrite (matmul_rejects (apply_pbc_array p) r n Ep NP). reflexivity.
Qed.
Lemma cell_image_shift y w tx r : cell_image y w -> cell_image (w + tx) r -> cell_image (y + tx) r.
Proof. intros [[k K] _] [[l L] D]. split; [|exact D]. exists (k + l)%Z. rewrite plus_IZR. lra. Qed.
Lemma f_C06_values p r t q : narr_wf p -> narr_wf r -> narr_wf t -> finite_array p -> finite_array r -> finite_array t ->
  transform_positions_array p r t = Ok q ->
  exists n s, na_shape p = [n; 3] /\ product_shape n (na_shape r) s /\ broadcasts s (na_shape t) (na_shape q) /\ narr_wf q /\
    forall idx, Forall2 lt idx (na_shape q) -> exists i j y d x,
      supplies s i idx /\ supplies (na_shape t) j idx /\ product_entry p r i y /\ entry t j (Fin d) /\ entry q idx (Fin x) /\ cell_image (y + d) x.
Proof.
  intros Wp Wr Wt Fp Fr Ft H. unfold transform_positions_array in H. destruct (verify_positions_array p) as [[]|e] eqn:V; [|discriminate]. cbn in H.
  apply verify_positions_array_ok in V as [[n Ep] C]. destruct (product_dec n (na_shape r)) as [(s & P)|NP]; [|rewrite (matmul_rejects (apply_pbc_array p) r n Ep NP) in H; discriminate].
  destruct (matmul_accepts (apply_pbc_array p) r n Ep s P) as (c & M & Es & Wc). rewrite M in H. cbn in H.
  destruct (f_C03_displace (apply_pbc_array c) t) as [D1 D2]; [apply map_entries_wf; exact Wc|exact Wt|].
  destruct (broadcasts_dec (na_shape (apply_pbc_array c)) (na_shape t)) as [B|NB]; [|rewrite (D2 NB) in H; discriminate].
  destruct (D1 B) as (q' & Hq & Wq & Bq & K). rewrite Hq in H. injection H as ->. change (na_shape (apply_pbc_array c)) with (na_shape c) in *. rewrite Es in *.
  exists n, s. split; [exact Ep|]. split; [exact P|]. split; [exact Bq|]. split; [exact Wq|]. intros idx I. destruct (K idx I) as (i & j & x & y & z & S1 & S2 & E1 & E2 & E3 & R).
  destruct (fin_of t j Wt Ft (proj1 E2)) as (d & Ed). pose proof (entry_unique _ _ _ _ E2 Ed) as ->. apply entry_map_inv in E1 as (x' & E1 & ->).
  destruct (matmul_entry p r n c Wp Wr Fp Fr Ep M i (proj1 E1)) as (v & Ev & PE). pose proof (entry_unique _ _ _ _ E1 Ev) as ->. cbn in R. destruct R as (w & -> & CI).
  exists i, j, v, d, w. split; [exact S1|]. split; [exact S2|]. split; [exact PE|]. split; [exact Ed|]. split; [exact E3|]. eapply cell_image_shift; [apply wrap_image|exact CI].
Qed.

(** * Displacing and measuring are inverse *)
Lemma supplies_unique s i j idx : supplies s i idx -> supplies s j idx -> i = j.
Proof.
  intros [L H] [L' H']. rewrite <- (rev_involutive i), <- (rev_involutive j). f_equal. apply (nth_ext _ _ 0 0); rewrite !rev_length; [congruence|].
  intros k K. rewrite H, H' by lia. reflexivity.
Qed.
Lemma supplies_self s idx : Forall2 lt idx s -> supplies s idx idx.
Proof.
  intros H. pose proof (f2len H) as L. split; [exact L|]. intros k K. destruct (axis s k =? 1) eqn:Q; [|reflexivity]. apply Nat.eqb_eq in Q. apply Forall2_rev in H.
  assert (X : nth k (rev idx) 0 < nth k (rev s) 1); [|unfold axis in Q; rewrite Q in X; lia].
  assert (K' : k < List.length (rev s)) by (rewrite rev_length; exact K). clear K Q L. revert k K'. generalize (rev s) (rev idx) H. clear. intros s i H.
  induction H; intros [|k] K; cbn in *; try lia. apply IHForall2. lia.
Qed.
Lemma broadcasts_absorb s t out : broadcasts s t out -> broadcasts s out out.
Proof.
  intros [L B]. split; [lia|]. intros k K. destruct (B k K) as [A E]. rewrite E. destruct (Nat.eqb_spec (axis s k) 1) as [Q|Q]; auto.
Qed.
Lemma broadcasts_unique s t o o' : broadcasts s t o -> broadcasts s t o' -> o = o'.
Proof. intros A B. apply broadcast_shapes_spec in A. apply broadcast_shapes_spec in B. congruence. Qed.
Lemma chain (r1 r2 r3 : num -> num -> num -> Prop) p d q e : combined r1 p d q -> combined r2 p q e -> (forall x y w z, r1 x y w -> r2 x w z -> r3 x y z) -> combined r3 p d e.
Proof.
  intros (W1 & B1 & H1) (W2 & B2 & H2) R. assert (E : na_shape e = na_shape q) by (eapply broadcasts_unique; [exact B2|eapply broadcasts_absorb; exact B1]).
  split; [exact W2|]. rewrite E in *. split; [exact B1|]. intros idx I. destruct (H1 idx I) as (i & j & x & y & w & S1 & S2 & E1 & E2 & E3 & Q1). destruct (H2 idx I) as (i' & j' & x' & w' & z & S1' & S2' & E1' & E2' & E3' & Q2).
  assert (i' = i) as -> by (eapply supplies_unique; eauto). assert (j' = idx) as -> by (eapply supplies_unique; [exact S2'|apply supplies_self; exact I]).
  assert (x' = x) as -> by (eapply entry_unique; eauto). assert (w' = w) as -> by (eapply entry_unique; eauto). exists i, j, x, y, z.
  split; [exact S1|]. split; [exact S2|]. split; [exact E1|]. split; [exact E2|]. split; [exact E3'|]. eapply R; eauto.
Qed.
Lemma f_C03_any_inverse p d q : narr_wf p -> narr_wf d -> displace_positions_array p d = Ok q ->
  exists e, calc_displacement_array p q = Ok e /\ combined shortest_to p d e.
Proof.
  intros Wp Wd H. destruct (f_C03_displace p d Wp Wd) as [D1 D2]. destruct (broadcasts_dec (na_shape p) (na_shape d)) as [B|NB]; [|rewrite (D2 NB) in H; discriminate].
  destruct (D1 B) as (q' & Hq & C). rewrite Hq in H. injection H as ->. pose proof C as (Wq & Bq & _). destruct (f_C03_measure p q Wp Wq) as [M _].
  destruct M as (e & He & Ce); [exists (na_shape q); eapply broadcasts_absorb; exact Bq|]. exists e. split; [exact He|]. eapply chain; [exact C|exact Ce|].
  intros x y w z. unfold displaced_to, measured_to, shortest_to. destruct x as [a| |]; destruct y as [b| |]; try (intros ->; auto).
  intros (r & -> & [k K] & D). intros (r' & -> & [l L] & D'). exists r'. split; [reflexivity|]. split; [|exact D']. exists (l + k)%Z. rewrite plus_IZR. lra.
Qed.
Lemma f_C03_any_reaches p q d : narr_wf p -> narr_wf q -> calc_displacement_array p q = Ok d ->
  exists e, displace_positions_array p d = Ok e /\ combined image_to p q e.
Proof.
  intros Wp Wq H. destruct (f_C03_measure p q Wp Wq) as [D1 D2]. destruct (broadcasts_dec (na_shape p) (na_shape q)) as [B|NB]; [|rewrite (D2 NB) in H; discriminate].
  destruct (D1 B) as (d' & Hd & C). rewrite Hd in H. injection H as ->. pose proof C as (Wd & Bd & _). destruct (f_C03_displace p d Wp Wd) as [M _].
  destruct M as (e & He & Ce); [exists (na_shape d); eapply broadcasts_absorb; exact Bd|]. exists e. split; [exact He|]. eapply chain; [exact C|exact Ce|].
  intros x y w z. unfold displaced_to, measured_to, image_to. destruct x as [a| |]; destruct y as [b| |]; try (intros ->; auto).
  intros (r & -> & [k K] & D). intros (r' & -> & [l L] & D'). exists r'. split; [reflexivity|]. split; [|exact D']. exists (k + l)%Z. rewrite plus_IZR. lra.
Qed.

(** * Examples *)
Definition ex_row : narr := mkNarr [1; 3] [Fin (1/2); Fin 0; Fin 1]%R.
Definition ex_vec : narr := mkNarr [3] [Fin 1; Fin 2; Fin (-1)]%R.
Definition ex_scalar : narr := mkNarr [] [Fin (3/4)]%R.
Definition ex_batch : narr := mkNarr [2; 1; 3] [Fin (1/4); Fin (-1/4); NaN; Fin 2; Fin (1/2); Inf true]%R.
Lemma ex_row_cell : within_cell ex_row. Proof. repeat constructor; lra. Qed.
Lemma ex_broadcast : broadcasts [2; 1; 3] [4; 3] [2; 4; 3] /\ ~ exists out, broadcasts [2; 3] [3; 3] out.
Proof.
  split; [apply broadcast_shapes_spec; reflexivity|]. intros (o & H). apply broadcast_shapes_spec in H. discriminate.
Qed.
Lemma ex_accepted : accepted ex_row ex_vec ex_scalar.
Proof. exists 1, [1], [1]. split; [reflexivity|]. split; [exact ex_row_cell|]. split; [constructor|]. apply broadcast_shapes_spec. reflexivity. Qed.
Lemma ex_wf : narr_wf ex_row /\ narr_wf ex_vec /\ narr_wf ex_scalar /\ narr_wf ex_batch. Proof. repeat split. Qed.
Lemma ex_finite : finite_array ex_row /\ finite_array ex_vec /\ finite_array ex_scalar.
Proof. repeat split; unfold finite_array; cbn; repeat (apply Forall_cons || apply Forall_nil); eauto. Qed.
Lemma f_C06_shapes : ~ (forall p r t q, narr_wf p -> narr_wf r -> narr_wf t -> transform_positions_array p r t = Ok q -> na_shape r = [3; 3] /\ na_shape q = na_shape p).
Proof.
  intros H. destruct ex_wf as (A & B & C & _). destruct (f_C06_accepts ex_row ex_vec ex_scalar A B C) as [X _]. destruct (X ex_accepted) as (q & Q). destruct (H _ _ _ _ A B C Q) as [Y _]. discriminate.
Qed.
