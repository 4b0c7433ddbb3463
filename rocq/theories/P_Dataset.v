(** Proofs about polarizability datasets: C65, C66, C78. *)
From Coq Require Import String Ascii ZArith NArith Reals Bool Arith List Lia Lra.
From Verif Require Import Base LinAlg Constants M_Validate M_Text M_Poscar M_Outcar M_Vasprun M_Dataset S_Dataset
  P_Poscar P_Outcar P_Outcar2.
Import ListNotations.
Local Open Scope nat_scope.

(** ** Rows of an array *)
Lemma rows_exist k : forall n (l : list num), List.length l = n * k ->
  exists rows, List.length rows = n /\ Forall (fun r => List.length r = k) rows /\ l = concat rows.
Proof.
  induction n as [|n IH]; intros l H.
  - exists []. destruct l; [|discriminate]. auto.
  - cbn in H. destruct (IH (skipn k l)) as (rows & Hl & Hf & Hc); [rewrite skipn_length; lia|].
    exists (firstn k l :: rows). cbn. split; [lia|]. split; [constructor; [rewrite firstn_length; lia|exact Hf]|].
    rewrite <- Hc, firstn_skipn. reflexivity.
Qed.
Lemma skipn_here {A} (a b : list A) : skipn (List.length a) (a ++ b) = b.
Proof. rewrite skipn_app, skipn_all, Nat.sub_diag. reflexivity. Qed.
Lemma firstn_here {A} (a b : list A) : firstn (List.length a) (a ++ b) = a.
Proof. rewrite firstn_app, firstn_all, Nat.sub_diag, firstn_O, app_nil_r. reflexivity. Qed.
Lemma split_rows_concat k rows : Forall (fun r => List.length r = k) rows -> split_rows k (List.length rows) (concat rows) = rows.
Proof.
  induction 1 as [|r rows Hr _ IH]; [reflexivity|]. cbn [List.length split_rows concat]. subst k.
  rewrite firstn_here, skipn_here, IH. reflexivity.
Qed.
Lemma concat_rows_length {A} k (rows : list (list A)) : Forall (fun r => List.length r = k) rows -> List.length (concat rows) = List.length rows * k.
Proof. induction 1 as [|r rows Hr _ IH]; [reflexivity|]. cbn. rewrite app_length, Hr, IH. reflexivity. Qed.
Lemma nth_error_rows {A} k (rows : list (list A)) : Forall (fun r => List.length r = k) rows -> forall s i, i < k ->
  nth_error (concat rows) (s * k + i) = match nth_error rows s with Some r => nth_error r i | None => None end.
Proof.
  induction 1 as [|r rows Hr _ IH]; intros s i Hi; [destruct (s * k + i), s; reflexivity|].
  destruct s as [|s]; cbn [concat nth_error].
  - rewrite nth_error_app1 by lia. reflexivity.
  - rewrite nth_error_app2 by lia. replace (S s * k + i - List.length r) with (s * k + i) by lia. apply IH. exact Hi.
Qed.
Lemma flat_map_rows {A B} (f : A -> list B) l : flat_map f l = concat (map f l).
Proof. apply flat_map_concat_map. Qed.
Lemma map_rows_length {A B} (f : A -> list B) k l : (forall x, List.length (f x) = k) -> Forall (fun r => List.length r = k) (map f l).
Proof. intros H. apply Forall_forall. intros r Hr. apply in_map_iff in Hr. destruct Hr as (x & <- & _). apply H. Qed.
Lemma split_rows_flat {A} (f : A -> list num) k l : (forall x, List.length (f x) = k) -> split_rows k (List.length l) (flat_map f l) = map f l.
Proof. intros H. rewrite flat_map_rows, <- (map_length f). apply split_rows_concat, map_rows_length, H. Qed.

(** Entries of arrays of rank 2 and 3 *)
Lemma f2_inv2 {A B} (P : A -> B -> Prop) a b x y : Forall2 P [a; b] [x; y] <-> P a x /\ P b y.
Proof. split; [intros H; inversion H as [|? ? ? ? H1 H2]; subst; inversion H2; subst; auto|intros [H1 H2]; auto]. Qed.
Lemma f2_inv3 {A B} (P : A -> B -> Prop) a b c x y z : Forall2 P [a; b; c] [x; y; z] <-> P a x /\ P b y /\ P c z.
Proof. split; [intros H; inversion H as [|? ? ? ? H1 H2]; subst; apply f2_inv2 in H2; tauto|intros (H1 & H2 & H3); auto]. Qed.
Lemma off2 n k s i : offset [n; k] [s; i] = s * k + i.
Proof. unfold offset, prod_list. cbn. lia. Qed.
Lemma off3 n s i j : offset [n; 3; 3] [s; i; j] = s * 9 + (3 * i + j).
Proof. unfold offset, prod_list. cbn. lia. Qed.
Lemma entry2 n k rows s i x : List.length rows = n -> Forall (fun r => List.length r = k) rows ->
  entry (mkNarr [n; k] (concat rows)) [s; i] x <-> exists r, nth_error rows s = Some r /\ nth_error r i = Some x.
Proof.
  intros Hn Hk. unfold entry. cbn [na_shape na_data]. rewrite f2_inv2, off2. split.
  - intros [[Hs Hi] H]. rewrite (nth_error_rows k) in H by assumption.
    destruct (nth_error rows s) as [r|] eqn:Hr; [|discriminate]. eauto.
  - intros (r & Hr & H). assert (Hi : i < k).
    { assert (Hne : nth_error r i <> None) by congruence. apply nth_error_Some in Hne. rewrite Forall_forall in Hk. rewrite (Hk r) in Hne; [exact Hne|]. eapply nth_error_In. exact Hr. }
    split; [split; [rewrite <- Hn; apply nth_error_Some; congruence|exact Hi]|].
    rewrite (nth_error_rows k) by assumption. rewrite Hr. exact H.
Qed.
Lemma entry3 n rows s i j x : List.length rows = n -> Forall (fun r => List.length r = 9) rows ->
  entry (mkNarr [n; 3; 3] (concat rows)) [s; i; j] x <-> i < 3 /\ j < 3 /\ exists r, nth_error rows s = Some r /\ nth_error r (3 * i + j) = Some x.
Proof.
  intros Hn Hk. unfold entry. cbn [na_shape na_data]. rewrite f2_inv3, off3. split.
  - intros [(Hs & Hi & Hj) H]. split; [exact Hi|]. split; [exact Hj|].
    rewrite (nth_error_rows 9) in H by (assumption || lia).
    destruct (nth_error rows s) as [r|] eqn:Hr; [|discriminate]. eauto.
  - intros (Hi & Hj & r & Hr & H). split; [split; [rewrite <- Hn; apply nth_error_Some; congruence|auto]|].
    rewrite (nth_error_rows 9) by (assumption || lia).
    rewrite Hr. exact H.
Qed.

(** ** C65 *)
Lemma size2 dims : verify_tensor_size dims [None; Some 6] = Ok tt <-> exists s, dims = [s; 6].
Proof.
  unfold verify_tensor_size. destruct dims as [|a [|b [|c l]]]; cbn; split; intros H; try discriminate; try (destruct H as [? H]; discriminate).
  - destruct (Nat.eqb_spec b 6); [subst; eauto|discriminate].
  - destruct H as [s H]. injection H as -> ->. reflexivity.
Qed.
Lemma size3 dims : verify_tensor_size dims [None; Some 3; Some 3] = Ok tt <-> exists s, dims = [s; 3; 3].
Proof.
  unfold verify_tensor_size. destruct dims as [|a [|b [|c [|d l]]]]; cbn; split; intros H; try discriminate; try (destruct H as [? H]; discriminate).
  - destruct (Nat.eqb_spec b 3); [|discriminate]. destruct (Nat.eqb_spec c 3); [subst; eauto|discriminate].
  - destruct H as [s H]. injection H as -> -> ->. reflexivity.
Qed.
Lemma size_err dims spec : verify_tensor_size dims spec = Ok tt \/ verify_tensor_size dims spec = Err ValueError.
Proof. unfold verify_tensor_size. destruct (negb _); [auto|]. destruct (sizes_match _ _); auto. Qed.
Lemma to_tensors_err a : vectors_to_tensors a = Err ValueError <-> ~ exists s, na_shape a = [s; 6].
Proof.
  unfold vectors_to_tensors. rewrite <- size2. destruct (size_err (na_shape a) [None; Some 6]) as [H | H]; rewrite H; cbn; split; intros; try congruence; tauto.
Qed.
Lemma to_vectors_err a : tensors_to_vectors a = Err ValueError <-> ~ exists s, na_shape a = [s; 3; 3].
Proof.
  unfold tensors_to_vectors. rewrite <- size3. destruct (size_err (na_shape a) [None; Some 3; Some 3]) as [H | H]; rewrite H; cbn; split; intros; try congruence; tauto.
Qed.
Definition up (r : list num) : list num := gather [0; 3; 4; 3; 1; 5; 4; 5; 2] r.
Definition down (r : list num) : list num := gather [0; 4; 8; 1; 2; 5] r.
Lemma to_tensors_ok a t : narr_wf a -> vectors_to_tensors a = Ok t <->
  exists rows, Forall (fun r => List.length r = 6) rows /\ a = mkNarr [List.length rows; 6] (concat rows) /\
    t = mkNarr [List.length rows; 3; 3] (concat (map up rows)).
Proof.
  intros Hw. unfold vectors_to_tensors. rewrite bind_ok. split.
  - intros ([] & Hs & H). apply size2 in Hs. destruct Hs as [s Hs]. unfold narr_wf in Hw. rewrite Hs in Hw. destruct (rows_exist 6 s (na_data a)) as (rows & Hl & Hf & Hc).
    { rewrite Hw. cbn. lia. }
    exists rows. split; [exact Hf|]. rewrite Hs in H. cbn [hd] in H. rewrite <- Hl, Hc, split_rows_concat in H by exact Hf. injection H as <-.
    split; [|rewrite flat_map_rows; reflexivity]. destruct a as [sh da]. cbn in *. congruence.
  - intros (rows & Hf & -> & ->). exists tt. cbn [na_shape na_data hd]. split; [reflexivity|]. rewrite split_rows_concat by exact Hf.
    rewrite flat_map_rows. reflexivity.
Qed.
Lemma to_vectors_ok a v : narr_wf a -> tensors_to_vectors a = Ok v <->
  exists rows, Forall (fun r => List.length r = 9) rows /\ a = mkNarr [List.length rows; 3; 3] (concat rows) /\
    v = mkNarr [List.length rows; 6] (concat (map down rows)).
Proof.
  intros Hw. unfold tensors_to_vectors. rewrite bind_ok. split.
  - intros ([] & Hs & H). apply size3 in Hs. destruct Hs as [s Hs]. unfold narr_wf in Hw. rewrite Hs in Hw. destruct (rows_exist 9 s (na_data a)) as (rows & Hl & Hf & Hc).
    { rewrite Hw. cbn. lia. }
    exists rows. split; [exact Hf|]. rewrite Hs in H. cbn [hd] in H. rewrite <- Hl, Hc, split_rows_concat in H by exact Hf. injection H as <-.
    split; [|rewrite flat_map_rows; reflexivity]. destruct a as [sh da]. cbn in *. congruence.
  - intros (rows & Hf & -> & ->). exists tt. cbn [na_shape na_data hd]. split; [reflexivity|]. rewrite split_rows_concat by exact Hf.
    rewrite flat_map_rows. reflexivity.
Qed.
Lemma up_length r : List.length (up r) = 9. Proof. reflexivity. Qed.
Lemma down_length r : List.length (down r) = 6. Proof. reflexivity. Qed.
Lemma down_up r : List.length r = 6 -> down (up r) = r.
Proof. intros H. do 6 (destruct r as [|? r]; [discriminate|]). destruct r; [reflexivity|discriminate]. Qed.
Lemma map_down_up rows : Forall (fun r => List.length r = 6) rows -> map down (map up rows) = rows.
Proof. induction 1 as [|r rows Hr _ IH]; [reflexivity|]. cbn [map]. rewrite down_up, IH by exact Hr. reflexivity. Qed.
Lemma rows_wf2 rows : Forall (fun r => List.length r = 6) rows -> narr_wf (mkNarr [List.length rows; 6] (concat rows)).
Proof. intros H. unfold narr_wf. cbn [na_shape na_data]. unfold prod_list. cbn [fold_right fold_left]. rewrite (concat_rows_length 6) by exact H. lia. Qed.
Lemma rows_wf3 rows : Forall (fun r => List.length r = 9) rows -> narr_wf (mkNarr [List.length rows; 3; 3] (concat rows)).
Proof. intros H. unfold narr_wf. cbn [na_shape na_data]. unfold prod_list. cbn [fold_right fold_left]. rewrite (concat_rows_length 9) by exact H. lia. Qed.
Lemma f_C65_inverse v t : narr_wf v -> vectors_to_tensors v = Ok t -> narr_wf t /\ tensors_to_vectors t = Ok v.
Proof.
  intros Hw H. apply to_tensors_ok in H; [|exact Hw]. destruct H as (rows & Hf & -> & ->).
  pose proof (map_rows_length up 9 rows up_length) as Hm. assert (W : narr_wf (mkNarr [List.length rows; 3; 3] (concat (map up rows)))).
  { rewrite <- (map_length up). apply rows_wf3. exact Hm. }
  split; [exact W|]. apply to_vectors_ok; [exact W|]. exists (map up rows). split; [exact Hm|]. rewrite map_length, map_down_up by exact Hf. auto.
Qed.
Lemma nth9 (r : list num) k x : nth_error r k = Some x -> nth k r NaN = x.
Proof. intros H. apply nth_error_nth. exact H. Qed.
Lemma row_symmetric r : List.length r = 9 ->
  (forall i j x, i < 3 -> j < 3 -> nth_error r (3 * i + j) = Some x -> nth_error r (3 * j + i) = Some x) <-> up (down r) = r.
Proof.
  intros H. do 9 (destruct r as [|? r]; [discriminate|]). destruct r; [|discriminate]. split.
  - intros S. pose proof (S 0 1 _ ltac:(lia) ltac:(lia) eq_refl) as S1. pose proof (S 0 2 _ ltac:(lia) ltac:(lia) eq_refl) as S2.
    pose proof (S 1 2 _ ltac:(lia) ltac:(lia) eq_refl) as S3. cbn in S1, S2, S3. unfold up, down, gather. cbn. congruence.
  - intros E i j x Hi Hj. unfold up, down, gather in E. cbn in E. injection E as E1 E2 E3.
    destruct i as [|[|[|i]]]; [| | |lia]; (destruct j as [|[|[|j]]]; [| | |lia]); cbn; congruence.
Qed.
Lemma symmetric_rows rows : Forall (fun r => List.length r = 9) rows ->
  symmetric_batch (mkNarr [List.length rows; 3; 3] (concat rows)) <-> map up (map down rows) = rows.
Proof.
  intros Hf. unfold symmetric_batch. split.
  - intros S. assert (G : forall s r, nth_error rows s = Some r -> up (down r) = r).
    { intros s r Hr. assert (L : List.length r = 9) by (rewrite Forall_forall in Hf; apply Hf; eapply nth_error_In; exact Hr).
      apply (proj1 (row_symmetric r L)). intros i j x Hi Hj Hx. specialize (S s i j x). rewrite !entry3 in S by auto.
      destruct S as (_ & _ & r' & Hr' & Hx'); [eauto|]. congruence. }
    clear -G. induction rows as [|r rows IH]; [reflexivity|]. cbn [map]. rewrite (G 0 r eq_refl), IH; [reflexivity|]. intros s. apply (G (Datatypes.S s)).
  - intros E s i j x. rewrite !entry3 by auto. intros (Hi & Hj & r & Hr & Hx). split; [exact Hj|]. split; [exact Hi|]. exists r. split; [exact Hr|].
    assert (L : List.length r = 9) by (rewrite Forall_forall in Hf; apply Hf; eapply nth_error_In; exact Hr).
    apply (proj2 (row_symmetric r L)); [|exact Hi|exact Hj|exact Hx].
    rewrite map_map in E. assert (Hr2 : nth_error (map (fun x => up (down x)) rows) s = Some (up (down r))) by (rewrite nth_error_map, Hr; reflexivity).
    rewrite E, Hr in Hr2. injection Hr2 as Hr2. symmetry. exact Hr2.
Qed.
Lemma f_C65_symmetric v t : narr_wf v -> vectors_to_tensors v = Ok t -> symmetric_batch t.
Proof.
  intros Hw H. apply to_tensors_ok in H; [|exact Hw]. destruct H as (rows & Hf & -> & ->).
  pose proof (map_rows_length up 9 rows up_length) as Hm. rewrite <- (map_length up). apply symmetric_rows; [exact Hm|].
  rewrite map_down_up by exact Hf. reflexivity.
Qed.
Lemma f_C65_iff a v : narr_wf a -> tensors_to_vectors a = Ok v -> vectors_to_tensors v = Ok a <-> symmetric_batch a.
Proof.
  intros Hw H. apply to_vectors_ok in H; [|exact Hw]. destruct H as (rows & Hf & -> & ->).
  pose proof (map_rows_length down 6 rows down_length) as Hm. rewrite symmetric_rows by exact Hf.
  assert (W : narr_wf (mkNarr [List.length rows; 6] (concat (map down rows)))).
  { rewrite <- (map_length down). apply rows_wf2. exact Hm. }
  rewrite to_tensors_ok by exact W. split.
  - intros (rows' & Hf' & H1 & H2). injection H1 as H0 H1. injection H2 as H2 H3.
    assert (E : map down rows = rows').
    { rewrite <- (split_rows_concat 6 _ Hm), <- (split_rows_concat 6 _ Hf'), H1, map_length, H0. reflexivity. }
    subst rows'. transitivity (split_rows 9 (List.length (map up (map down rows))) (concat (map up (map down rows)))).
    + symmetry. apply split_rows_concat. apply map_rows_length, up_length.
    + rewrite <- H3, !map_length. apply split_rows_concat. exact Hf.
  - intros E. exists (map down rows). split; [exact Hm|]. rewrite map_length, E. auto.
Qed.
Lemma f_C65_components a v s k i j x : narr_wf a -> tensors_to_vectors a = Ok v -> nth_error components k = Some (i, j) ->
  entry v [s; k] x <-> entry a [s; i; j] x.
Proof.
  intros Hw H Hk. apply to_vectors_ok in H; [|exact Hw]. destruct H as (rows & Hf & -> & ->).
  rewrite entry2 by (rewrite ?map_length; auto using map_rows_length, down_length). rewrite entry3 by auto.
  assert (G : forall r, List.length r = 9 -> nth_error (down r) k = nth_error r (3 * i + j) /\ i < 3 /\ j < 3).
  { intros r L. do 9 (destruct r as [|? r]; [discriminate|]). destruct r; [|discriminate].
    do 6 (destruct k as [|k]; [injection Hk as <- <-; cbn; repeat split; lia|]). destruct k; discriminate. }
  rewrite Forall_forall in Hf. split.
  - intros (r & Hr & Hx). rewrite nth_error_map in Hr. destruct (nth_error rows s) as [r'|] eqn:Hs; [|discriminate]. injection Hr as <-.
    destruct (G r') as (E & Hi & Hj); [apply Hf; eapply nth_error_In; exact Hs|]. rewrite E in Hx. split; [exact Hi|]. split; [exact Hj|]. eauto.
  - intros (_ & _ & r & Hr & Hx). destruct (G r) as (E & _ & _); [apply Hf; eapply nth_error_In; exact Hr|]. exists (down r).
    rewrite nth_error_map, Hr. split; [reflexivity|]. rewrite E. exact Hx.
Qed.
