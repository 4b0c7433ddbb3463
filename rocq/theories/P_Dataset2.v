(** Proofs about polarizability datasets: C66, C78. *)
From Coq Require Import String Ascii ZArith NArith Reals Bool Arith List Lia Lra.
From Verif Require Import Base LinAlg Constants M_Validate M_Text M_Poscar M_Outcar M_Vasprun M_Dataset S_Dataset
  P_Poscar P_Outcar P_Outcar2 P_Dataset.
Import ListNotations.
Local Open Scope nat_scope.

(** ** Statistics *)
Lemma rsum_affine m c l : rsum (map (fun x => (x - m) * c)%R l) = ((rsum l - INR (List.length l) * m) * c)%R.
Proof. induction l as [|x l IH]; cbn [map rsum fold_right List.length]; [cbn; ring|]. fold (rsum (map (fun x => (x - m) * c)%R l)). fold (rsum l). rewrite IH, S_INR. ring. Qed.
Lemma rsum_scale c l : rsum (map (fun x => x * c)%R l) = (rsum l * c)%R.
Proof. induction l as [|x l IH]; cbn [map rsum fold_right]; [ring|]. fold (rsum (map (fun x => x * c)%R l)). fold (rsum l). rewrite IH. ring. Qed.
Lemma rsum_nonneg l : Forall (fun x => 0 <= x)%R l -> (0 <= rsum l)%R.
Proof. induction 1; cbn; [lra|]. fold (rsum l). lra. Qed.
Lemma rsum_zero l : Forall (fun x => 0 <= x)%R l -> rsum l = 0%R -> Forall (fun x => x = 0)%R l.
Proof.
  induction 1 as [|x l Hx Hl IH]; intros Hs; constructor; pose proof (rsum_nonneg l Hl); cbn in Hs; fold (rsum l) in Hs; [lra|apply IH; lra].
Qed.
Lemma len_pos {A} (l : list A) : l <> [] -> (0 < INR (List.length l))%R.
Proof. intros H. apply lt_0_INR. destruct l; [congruence|cbn; lia]. Qed.
Lemma squares_nonneg m l : Forall (fun x => 0 <= x)%R (map (fun x => (x - m) ^ 2)%R l).
Proof. apply Forall_forall. intros y Hy. apply in_map_iff in Hy. destruct Hy as (x & <- & _). apply pow2_ge_0. Qed.
Lemma variance_nonneg l : l <> [] -> (0 <= variance l)%R.
Proof.
  intros H. unfold variance, mean at 1. rewrite map_length. apply Rmult_le_pos; [apply rsum_nonneg, squares_nonneg|].
  left. apply Rinv_0_lt_compat, len_pos, H.
Qed.
Lemma variance_zero l : l <> [] -> variance l = 0%R <-> constant l.
Proof.
  intros H. pose proof (len_pos l H) as L. unfold variance. unfold mean at 1. rewrite map_length. split.
  - intros E x y Hx Hy. assert (S : rsum (map (fun x => (x - mean l) ^ 2)%R l) = 0%R).
    { apply (Rmult_eq_reg_r (/ INR (List.length l))); [|apply Rinv_neq_0_compat; lra]. rewrite Rmult_0_l. exact E. }
    apply rsum_zero in S; [|apply squares_nonneg]. rewrite Forall_forall in S.
    assert (G : forall z, In z l -> z = mean l).
    { intros z Hz. specialize (S _ (in_map (fun x => (x - mean l) ^ 2)%R l z Hz)). cbn beta in S. nra. }
    rewrite (G x Hx), (G y Hy). reflexivity.
  - intros C. destruct l as [|a l]; [congruence|]. assert (G : forall z, In z (a :: l) -> z = a) by (intros z Hz; apply C; [exact Hz|left; reflexivity]).
    assert (S : forall b l', (forall z, In z l' -> z = b) -> rsum l' = (INR (List.length l') * b)%R).
    { intros b. induction l' as [|z l' IH]; intros Hz; [cbn; ring|]. cbn [rsum fold_right List.length]. fold (rsum l'). rewrite IH by (intros w Hw; apply Hz; right; exact Hw).
      rewrite (Hz z (or_introl eq_refl)), S_INR. ring. }
    assert (M : mean (a :: l) = a) by (unfold mean; rewrite (S a _ G); field; lra).
    rewrite M. rewrite (S 0%R); [unfold Rdiv; rewrite map_length; ring|]. intros z Hz. apply in_map_iff in Hz. destruct Hz as (w & <- & Hw). rewrite (G w Hw). ring.
Qed.
Definition zscores (l : list R) : list R := map (fun x => (x - mean l) / stddev l)%R l.
Lemma zscores_stats l : ~ constant l -> mean (zscores l) = 0%R /\ variance (zscores l) = 1%R /\ (0 < stddev l)%R.
Proof.
  intros C. assert (H : l <> []) by (intros ->; apply C; intros ? ? []).
  pose proof (len_pos l H) as L. assert (V : (0 < variance l)%R).
  { destruct (Rle_lt_or_eq_dec _ _ (variance_nonneg l H)) as [V | V]; [exact V|]. exfalso. apply C, variance_zero; [exact H|congruence]. }
  assert (D : (0 < stddev l)%R) by (apply sqrt_lt_R0; exact V).
  assert (M : mean (zscores l) = 0%R).
  { unfold mean at 1, zscores. rewrite map_length. unfold Rdiv at 2. rewrite rsum_affine. unfold mean. field. lra. }
  split; [exact M|]. split; [|exact D]. unfold variance. rewrite M. unfold mean, zscores. rewrite !map_length, map_map.
  replace (map (fun x => ((x - mean l) / stddev l - 0) ^ 2)%R l) with (map (fun y => y * (/ stddev l ^ 2))%R (map (fun x => (x - mean l) ^ 2)%R l)).
  - rewrite rsum_scale. assert (E : (stddev l ^ 2 = variance l)%R) by (unfold stddev; rewrite <- Rsqr_pow2; apply Rsqr_sqrt; lra).
    rewrite E. unfold variance, mean at 2. rewrite map_length.
    assert (N : rsum (map (fun x => (x - mean l) ^ 2)%R l) <> 0%R).
    { intros N. unfold variance, mean at 1 in V. rewrite map_length, N in V. unfold Rdiv in V. lra. }
    field. split; first [exact N | lra].
  - rewrite map_map. apply map_ext. intros x. field. lra.
Qed.
Lemma num_sum_fin l : num_sum (map Fin l) = Fin (rsum l).
Proof.
  unfold num_sum. assert (G : forall a, fold_left num_add (map Fin l) (Fin a) = Fin (a + rsum l)%R).
  { induction l as [|x l IH]; intros a; cbn [map fold_left rsum fold_right]; [f_equal; ring|]. fold (rsum l). cbn [num_add]. rewrite IH. f_equal. ring. }
  rewrite G. f_equal. ring.
Qed.
Lemma col_mean_fin l : l <> [] -> col_mean (map Fin l) = Fin (mean l).
Proof.
  intros H. unfold col_mean. rewrite num_sum_fin, map_length. cbn [num_quot]. pose proof (len_pos l H). destruct (Req_EM_T _ 0); [lra|reflexivity].
Qed.
Lemma col_std_fin l : l <> [] -> col_std (map Fin l) = Fin (stddev l).
Proof.
  intros H. unfold col_std. rewrite col_mean_fin by exact H. cbv zeta. rewrite map_map, map_length.
  replace (map (fun x => num_mul (num_sub (Fin x) (Fin (mean l))) (num_sub (Fin x) (Fin (mean l)))) l) with (map Fin (map (fun x => (x - mean l) ^ 2)%R l)).
  - rewrite num_sum_fin. cbn [num_quot]. pose proof (len_pos l H). destruct (Req_EM_T _ 0); [lra|]. cbn [num_sqrt].
    replace (rsum (map (fun x => (x - mean l) ^ 2)%R l) / INR (List.length l))%R with (variance l) by (unfold variance, mean at 1; rewrite map_length; reflexivity).
    unfold Rltb. destruct (Rlt_dec (variance l) 0) as [V|_]; [pose proof (variance_nonneg l H); lra|]. reflexivity.
  - rewrite map_map. apply map_ext. intros x. cbn. f_equal. ring.
Qed.

(** ** Arrays of samples *)
Definition samples {A} (f : A -> list num) (l : list A) : narr := mkNarr [List.length l; 3; 3] (flat_map f l).
Lemma zip_length {A B C} (op : A -> B -> C) : forall l m, List.length l = List.length m -> List.length (zip_with op l m) = List.length l.
Proof. induction l as [|a l IH]; intros [|b m] H; try discriminate; [reflexivity|]. cbn. f_equal. apply IH. cbn in H. lia. Qed.
Lemma zip_nth {A B C} (op : A -> B -> C) da db dc : forall l m k, k < List.length l -> k < List.length m ->
  nth k (zip_with op l m) dc = op (nth k l da) (nth k m db).
Proof. induction l as [|a l IH]; intros [|b m] k Hl Hm; cbn in Hl, Hm; try lia. destruct k; [reflexivity|]. cbn. apply IH; lia. Qed.
Lemma each_samples {A} op (f : A -> list num) l t : (forall x, List.length (f x) = 9) -> each op (samples f l) t = samples (fun x => zip_with op (f x) t) l.
Proof.
  intros H. unfold each, samples. cbn [na_shape na_data hd]. rewrite split_rows_flat by exact H. f_equal.
  rewrite !flat_map_concat_map, map_map. reflexivity.
Qed.
Lemma column_samples {A} (f : A -> list num) l k : (forall x, List.length (f x) = 9) -> column (samples f l) k = map (fun x => nth k (f x) NaN) l.
Proof. intros H. unfold column, samples. cbn [na_shape na_data hd]. rewrite split_rows_flat by exact H. apply map_map. Qed.
Definition rowof (t : M3) : list num := na_data (tensor t).
Lemma rowof_length t : List.length (rowof t) = 9. Proof. reflexivity. Qed.
Lemma rowof_nth t i j : i < 3 -> j < 3 -> nth (3 * i + j) (rowof t) NaN = Fin (ment t i j).
Proof. intros Hi Hj. destruct i as [|[|[|i]]]; [| | |lia]; (destruct j as [|[|[|j]]]; [| | |lia]); reflexivity. Qed.
Lemma tensors_samples ts : tensors ts = samples rowof ts. Proof. reflexivity. Qed.
Lemma means_length a : List.length (means a) = 9. Proof. reflexivity. Qed.
Lemma stds_length a : List.length (stds a) = 9. Proof. reflexivity. Qed.
Lemma index9 i j : i < 3 -> j < 3 -> 3 * i + j < 9. Proof. lia. Qed.
Lemma nth_map_seq {B} (f : nat -> B) d k : k < 9 -> nth k (map f (seq 0 9)) d = f k.
Proof. intros H. rewrite (nth_indep _ d (f 0)) by (rewrite map_length, seq_length; exact H). rewrite map_nth, seq_nth by exact H. reflexivity. Qed.
Lemma means_nth ts i j : ts <> [] -> i < 3 -> j < 3 -> nth (3 * i + j) (means (tensors ts)) NaN = Fin (mean (map (fun t => ment t i j) ts)).
Proof.
  intros H Hi Hj. unfold means. rewrite nth_map_seq by (apply index9; assumption). rewrite tensors_samples, column_samples by apply rowof_length.
  rewrite <- col_mean_fin by (destruct ts; [congruence|discriminate]). f_equal. rewrite map_map. apply map_ext. intros t. apply rowof_nth; assumption.
Qed.
Lemma stds_nth ts i j : ts <> [] -> i < 3 -> j < 3 -> nth (3 * i + j) (stds (tensors ts)) NaN = Fin (stddev (map (fun t => ment t i j) ts)).
Proof.
  intros H Hi Hj. unfold stds. rewrite nth_map_seq by (apply index9; assumption). rewrite tensors_samples, column_samples by apply rowof_length.
  rewrite <- col_std_fin by (destruct ts; [congruence|discriminate]). f_equal. rewrite map_map. apply map_ext. intros t. apply rowof_nth; assumption.
Qed.
Lemma components_lt k i j : nth_error components k = Some (i, j) -> k < 6 /\ i < 3 /\ j < 3 /\ nth k [0; 4; 8; 1; 2; 5] 0 = 3 * i + j.
Proof. intros H. do 6 (destruct k as [|k]; [injection H as <- <-; cbn; lia|]). destruct k; discriminate. Qed.
Definition six (cast : num -> num) (r : list num) : list num := map cast [nth 0 r NaN; nth 4 r NaN; nth 8 r NaN; nth 1 r NaN; nth 2 r NaN; nth 5 r NaN].
Lemma six_nth cast r k i j : nth_error components k = Some (i, j) -> nth_error (six cast r) k = Some (cast (nth (3 * i + j) r NaN)).
Proof. intros H. do 6 (destruct k as [|k]; [injection H as <- <-; reflexivity|]). destruct k; discriminate. Qed.
Lemma flatten_entry {A} cast (f : A -> list num) l s k i j x : (forall a, List.length (f a) = 9) -> nth_error components k = Some (i, j) ->
  entry (flatten cast (samples f l)) [s; k] x <-> exists a, nth_error l s = Some a /\ x = cast (nth (3 * i + j) (f a) NaN).
Proof.
  intros H Hk. unfold flatten, samples. cbn [na_shape na_data hd]. rewrite split_rows_flat by exact H.
  change (fun r => map cast [nth 0 r NaN; nth 4 r NaN; nth 8 r NaN; nth 1 r NaN; nth 2 r NaN; nth 5 r NaN]) with (six cast).
  rewrite flat_map_concat_map, map_map. rewrite entry2.
  - split.
    + intros (r & Hr & Hx). rewrite nth_error_map in Hr. destruct (nth_error l s) as [a|]; [|discriminate]. injection Hr as <-.
      rewrite (six_nth _ _ _ _ _ Hk) in Hx. injection Hx as <-. eauto.
    + intros (a & Ha & ->). exists (six cast (f a)). rewrite nth_error_map, Ha. split; [reflexivity|apply six_nth; exact Hk].
  - apply map_length.
  - apply map_rows_length. reflexivity.
Qed.
Lemma cast_all_entry cast a idx x : entry (cast_all cast a) idx x <-> exists y, entry a idx y /\ x = cast y.
Proof.
  unfold entry, cast_all. cbn [na_shape na_data]. rewrite nth_error_map. split.
  - intros [H1 H2]. destruct (nth_error (na_data a) _) as [y|] eqn:E; [|discriminate]. injection H2 as <-. eauto.
  - intros (y & [H1 H2] & ->). rewrite H2. auto.
Qed.

(** ** C66 *)
Definition standard (ts : list M3) : narr := each num_quot (each num_sub (tensors ts) (means (tensors ts))) (stds (tensors ts)).
Lemma new_ok cast lattice numbers positions pol d : dataset_new cast lattice numbers positions pol = Ok d ->
  d = mkDataset (cast_all cast lattice) numbers (cast_all cast positions) pol
        (cast_all cast (flatten cast (each num_quot (each num_sub pol (means pol)) (stds pol)))).
Proof.
  unfold dataset_new. intros H. do 4 (apply bind_ok in H; destruct H as ([] & _ & H)). cbn in H. injection H as <-. reflexivity.
Qed.
Lemma standard_entry cast ts s k i j x : ts <> [] -> nth_error components k = Some (i, j) ->
  entry (flatten cast (standard ts)) [s; k] x <-> exists t, nth_error ts s = Some t /\
    x = cast (num_quot (Fin (ment t i j - mean (map (fun t => ment t i j) ts))) (Fin (stddev (map (fun t => ment t i j) ts)))).
Proof.
  intros Hne Hk. destruct (components_lt _ _ _ Hk) as (_ & Hi & Hj & _). unfold standard. rewrite tensors_samples at 1.
  rewrite each_samples by apply rowof_length. rewrite each_samples by (intros t; rewrite zip_length; reflexivity).
  rewrite (flatten_entry _ _ _ _ _ i j) by (try exact Hk; intros t; rewrite !zip_length; reflexivity).
  assert (G : forall t, nth (3 * i + j) (zip_with num_quot (zip_with num_sub (rowof t) (means (tensors ts))) (stds (tensors ts))) NaN =
     num_quot (Fin (ment t i j - mean (map (fun t => ment t i j) ts))) (Fin (stddev (map (fun t => ment t i j) ts)))).
  { intros t. rewrite (zip_nth _ NaN NaN NaN); [|rewrite zip_length by reflexivity; apply index9; assumption|apply index9; assumption].
    rewrite (zip_nth _ NaN NaN NaN) by (apply index9; assumption). rewrite rowof_nth, means_nth, stds_nth by assumption. reflexivity. }
  split; intros (t & Ht & Hx); exists t; (split; [exact Ht|]); rewrite Hx, G; reflexivity.
Qed.
Lemma f_C66_standard cast lattice numbers positions ts d : (forall x, cast (cast x) = cast x) ->
  dataset_new cast lattice numbers positions (tensors ts) = Ok d ->
  forall k i j, nth_error components k = Some (i, j) -> let xs := map (fun t => ment t i j) ts in ~ constant xs ->
  exists zs, List.length zs = List.length ts /\ mean zs = 0%R /\ variance zs = 1%R /\
    forall s z, nth_error zs s = Some z ->
      entry (ds_scaled d) [s; k] (cast (Fin z)) /\ nth_error xs s = Some (z * stddev xs + mean xs)%R.
Proof.
  intros Hc H k i j Hk xs Hx. apply new_ok in H. subst d. cbn [ds_scaled]. fold (standard ts).
  destruct (zscores_stats xs Hx) as (M & V & D). exists (zscores xs). split; [unfold zscores, xs; rewrite !map_length; reflexivity|].
  split; [exact M|]. split; [exact V|]. intros s z Hz. unfold zscores in Hz. rewrite nth_error_map in Hz. destruct (nth_error xs s) as [x|] eqn:Hs; [|discriminate].
  injection Hz as <-. split.
  - apply cast_all_entry. exists (cast (Fin ((x - mean xs) / stddev xs))). split; [|symmetry; apply Hc].
    assert (Hne : ts <> []) by (intros ->; apply Hx; intros ? ? []). apply standard_entry with (i := i) (j := j); [exact Hne|exact Hk|].
    unfold xs in Hs. rewrite nth_error_map in Hs. destruct (nth_error ts s) as [t|] eqn:Ht; [|discriminate]. injection Hs as <-. exists t. split; [reflexivity|].
    fold xs. cbn [num_quot]. destruct (Req_EM_T (stddev xs) 0); [lra|reflexivity].
  - f_equal. field. lra.
Qed.
Lemma f_C66_constant cast lattice numbers positions ts d : (forall x, cast (cast x) = cast x) ->
  dataset_new cast lattice numbers positions (tensors ts) = Ok d ->
  forall k i j, nth_error components k = Some (i, j) -> constant (map (fun t => ment t i j) ts) ->
  forall s, s < List.length ts -> entry (ds_scaled d) [s; k] (cast NaN).
Proof.
  intros Hc H k i j Hk Hx s Hs. apply new_ok in H. subst d. cbn [ds_scaled]. fold (standard ts).
  assert (Hne : ts <> []) by (intros ->; cbn in Hs; lia). apply cast_all_entry. exists (cast NaN). split; [|symmetry; apply Hc].
  apply standard_entry with (i := i) (j := j); [exact Hne|exact Hk|]. destruct (nth_error ts s) as [t|] eqn:Ht; [|apply nth_error_None in Ht; lia].
  exists t. split; [reflexivity|]. set (xs := map (fun t => ment t i j) ts) in *. assert (Hxs : xs <> []) by (unfold xs; destruct ts; [congruence|discriminate]).
  pose proof (proj2 (variance_zero xs Hxs) Hx) as V. unfold stddev. rewrite V, sqrt_0.
  assert (M : mean xs = ment t i j).
  { assert (In (ment t i j) xs) by (apply (in_map (fun t => ment t i j)); eapply nth_error_In; exact Ht).
    unfold variance in V. destruct (Req_EM_T (mean xs) (ment t i j)) as [E|E]; [exact E|]. exfalso.
    pose proof (len_pos xs Hxs) as L. unfold mean at 1 in V. rewrite map_length in V.
    assert (S : rsum (map (fun x => (x - mean xs) ^ 2)%R xs) = 0%R).
    { apply (Rmult_eq_reg_r (/ INR (List.length xs))); [|apply Rinv_neq_0_compat; lra]. rewrite Rmult_0_l. exact V. }
    apply rsum_zero in S; [|apply squares_nonneg]. rewrite Forall_forall in S. specialize (S _ (in_map (fun x => (x - mean xs) ^ 2)%R xs _ H)). cbn beta in S. nra. }
  rewrite M. replace (ment t i j - ment t i j)%R with 0%R by ring. cbn [num_quot]. destruct (Req_EM_T 0 0); [reflexivity|congruence].
Qed.
Lemma nth_nth_error {A} (l : list A) k d x : k < List.length l -> nth k l d = x -> nth_error l k = Some x.
Proof. intros H <-. apply nth_error_nth'. exact H. Qed.
Lemma entry33 l i j x : i < 3 -> j < 3 -> List.length l = 9 -> nth (3 * i + j) l NaN = x -> entry (mkNarr [3; 3] l) [i; j] x.
Proof.
  intros Hi Hj Hl H. unfold entry. cbn [na_shape na_data]. rewrite f2_inv2, off2. split; [auto|]. replace (i * 3 + j) with (3 * i + j) by lia.
  apply (nth_nth_error _ _ NaN); [lia|exact H].
Qed.
Lemma f_C66_statistics d ts i j : ds_raw d = tensors ts -> ts <> [] -> i < 3 -> j < 3 ->
  let xs := map (fun t => ment t i j) ts in
  entry (mean_polarizability d) [i; j] (Fin (mean xs)) /\ entry (stddev_polarizability d) [i; j] (Fin (stddev xs)).
Proof.
  intros Hr Hne Hi Hj xs. unfold mean_polarizability, stddev_polarizability. rewrite Hr.
  split; (apply entry33; [exact Hi|exact Hj|reflexivity|]); [apply means_nth|apply stds_nth]; assumption.
Qed.

(** Histories of rescaling *)
Lemma shape33 dims : verify_ndarray_shape dims [Some 3; Some 3] = Ok tt <-> dims = [3; 3].
Proof.
  unfold verify_ndarray_shape. destruct dims as [|a [|b [|c l]]]; cbn; try (split; intros H; discriminate).
  destruct (Nat.eqb_spec a 3); [|split; [discriminate|congruence]]. destruct (Nat.eqb_spec b 3); [subst; tauto|split; [discriminate|congruence]].
Qed.
Definition rescaled (raw mean stddev : narr) : res narr := tensors_to_vectors (each num_quot (each num_sub raw (na_data mean)) (na_data stddev)).
Lemma scale_ok d m s d' : scale_polarizabilities d m s = Ok d' <->
  valid_scaling (m, s) /\ exists v, rescaled (ds_raw d) m s = Ok v /\ d' = mkDataset (ds_lattice d) (ds_numbers d) (ds_positions d) (ds_raw d) v.
Proof.
  unfold scale_polarizabilities, valid_scaling, rescaled. cbn [fst snd]. rewrite bind_ok. split.
  - intros ([] & H1 & H). apply bind_ok in H. destruct H as ([] & H2 & H). apply bind_ok in H. destruct H as (v & Hv & H). injection H as <-.
    apply shape33 in H1, H2. eauto.
  - intros ([H1 H2] & v & Hv & ->). exists tt. split; [apply shape33; exact H1|]. apply bind_ok. exists tt. split; [apply shape33; exact H2|].
    rewrite Hv. reflexivity.
Qed.
Lemma history_raw d h d' : scalings d h d' ->
  ds_raw d' = ds_raw d /\ ds_lattice d' = ds_lattice d /\ ds_numbers d' = ds_numbers d /\ ds_positions d' = ds_positions d.
Proof.
  induction 1 as [d|d m s h d1 d2 H _ IH|d m s h e d2 H _ IH]; [auto| |exact IH]. apply scale_ok in H. destruct H as (_ & v & _ & ->). exact IH.
Qed.
Lemma history_invalid d h d' : scalings d h d' -> Forall (fun c => ~ valid_scaling c) h -> d' = d.
Proof.
  induction 1 as [d|d m s h d1 d2 H _ IH|d m s h e d2 H _ IH]; intros F; [reflexivity| |]; inversion F; subst.
  - apply scale_ok in H. destruct H as [H _]. contradiction.
  - apply IH. assumption.
Qed.
Lemma scalings_app d h1 h2 d' : scalings d (h1 ++ h2) d' <-> exists d1, scalings d h1 d1 /\ scalings d1 h2 d'.
Proof.
  revert d. induction h1 as [|[m s] h1 IH]; intros d; cbn [app].
  - split; [intros H; exists d; split; [constructor|exact H]|]. intros (d1 & H1 & H2). inversion H1; subst. exact H2.
  - split.
    + intros H. inversion H as [|? ? ? ? dx ? Hs Hr|? ? ? ? ? ? Hs Hr]; subst; apply IH in Hr; destruct Hr as (d1 & H1 & H2); exists d1; (split; [|exact H2]);
        [eapply scalings_ok|eapply scalings_raise]; eassumption.
    + intros (d1 & H1 & H2). inversion H1 as [|? ? ? ? dx ? Hs Hr|? ? ? ? ? ? Hs Hr]; subst; [eapply scalings_ok|eapply scalings_raise]; try eassumption; apply IH; eauto.
Qed.
Lemma f_C66_unscaled d h d' : scalings d h d' -> Forall (fun c => ~ valid_scaling c) h -> d' = d.
Proof. apply history_invalid. Qed.
Lemma rescaled_tensors ts m s : List.length (na_data m) = 9 -> List.length (na_data s) = 9 ->
  exists v, rescaled (tensors ts) m s = Ok v /\ na_shape v = [List.length ts; 6] /\ narr_wf v /\
    forall n k i j x, nth_error components k = Some (i, j) ->
      entry v [n; k] x <-> exists t, nth_error ts n = Some t /\ x = num_quot (num_sub (Fin (ment t i j)) (nth (3 * i + j) (na_data m) NaN)) (nth (3 * i + j) (na_data s) NaN).
Proof.
  intros Hm Hs. unfold rescaled. rewrite tensors_samples, each_samples by apply rowof_length.
  rewrite each_samples by (intros t; rewrite zip_length; [reflexivity|rewrite Hm; reflexivity]).
  set (f := fun t => zip_with num_quot (zip_with num_sub (rowof t) (na_data m)) (na_data s)).
  assert (L : forall t, List.length (f t) = 9).
  { intros t. unfold f. rewrite zip_length; rewrite zip_length; rewrite ?Hm, ?Hs; reflexivity. }
  pose proof (map_rows_length f 9 ts L) as Hf. unfold samples. rewrite flat_map_concat_map.
  assert (W : narr_wf (mkNarr [List.length ts; 3; 3] (concat (map f ts)))) by (rewrite <- (map_length f); apply rows_wf3; exact Hf).
  eexists. split; [apply to_vectors_ok; [exact W|]; exists (map f ts); split; [exact Hf|]; rewrite map_length; split; reflexivity|].
  split; [reflexivity|]. split; [rewrite <- (map_length f), <- (map_length down); apply rows_wf2; apply map_rows_length, down_length|].
  intros n k i j x Hk. destruct (components_lt _ _ _ Hk) as (_ & Hi & Hj & _).
  rewrite entry2; [|rewrite !map_length; reflexivity|apply map_rows_length, down_length].
  assert (G : forall t, nth_error (down (f t)) k = Some (num_quot (num_sub (Fin (ment t i j)) (nth (3 * i + j) (na_data m) NaN)) (nth (3 * i + j) (na_data s) NaN))).
  { intros t. replace (nth_error (down (f t)) k) with (Some (nth (3 * i + j) (f t) NaN)).
    - f_equal. unfold f. rewrite (zip_nth _ NaN NaN NaN); [|rewrite zip_length; [apply index9; assumption|rewrite Hm; reflexivity]|rewrite Hs; apply index9; assumption].
      rewrite (zip_nth _ NaN NaN NaN); [|apply index9; assumption|rewrite Hm; apply index9; assumption]. rewrite rowof_nth by assumption. reflexivity.
    - do 6 (destruct k as [|k]; [injection Hk as <- <-; reflexivity|]). destruct k; discriminate. }
  split.
  - intros (r & Hr & Hx). rewrite !nth_error_map in Hr. destruct (nth_error ts n) as [t|]; [|discriminate]. injection Hr as <-. rewrite G in Hx. injection Hx as <-. eauto.
  - intros (t & Ht & ->). exists (down (f t)). rewrite !nth_error_map, Ht. split; [reflexivity|apply G].
Qed.
Lemma f_C66_last_wins d h1 h2 m s d' ts : ds_raw d = tensors ts -> scalings d (h1 ++ (tensor m, tensor s) :: h2) d' ->
  Forall (fun c => ~ valid_scaling c) h2 ->
  ds_raw d' = ds_raw d /\
  forall n k i j t, nth_error components k = Some (i, j) -> nth_error ts n = Some t -> ment s i j <> 0%R ->
    entry (ds_scaled d') [n; k] (Fin ((ment t i j - ment m i j) / ment s i j)).
Proof.
  intros Hr H Hi. split; [apply (history_raw _ _ _ H)|]. apply scalings_app in H. destruct H as (d1 & H1 & H2).
  apply history_raw in H1. destruct H1 as (R1 & _). destruct (rescaled_tensors ts (tensor m) (tensor s) eq_refl eq_refl) as (v & Hv & _ & _ & E).
  assert (Hd : exists d2, scale_polarizabilities d1 (tensor m) (tensor s) = Ok d2 /\ ds_scaled d2 = v).
  { eexists. split; [apply scale_ok; split; [split; reflexivity|]; exists v; split; [rewrite R1, Hr; exact Hv|reflexivity]|reflexivity]. }
  destruct Hd as (d2 & Hd & Hsc). inversion H2 as [|? ? ? ? dx ? Hs Hrest|? ? ? ? ? ? Hs Hrest]; subst; [|congruence].
  rewrite Hd in Hs. injection Hs as <-. rewrite (history_invalid _ _ _ Hrest Hi). intros n k i j t Hk Ht Hn. apply (E n k i j _ Hk).
  destruct (components_lt _ _ _ Hk) as (_ & Hi' & Hj' & _). exists t. split; [exact Ht|].
  change (na_data (tensor m)) with (rowof m). change (na_data (tensor s)) with (rowof s). rewrite !rowof_nth by assumption. cbn.
  destruct (Req_EM_T (ment s i j) 0); [contradiction|reflexivity].
Qed.
