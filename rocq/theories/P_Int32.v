From Coq Require Import String ZArith Reals Bool List Lia.
From Verif Require Import Base LinAlg M_Validate M_Text M_Poscar M_Dataset M_Int32 P_Dataset2.
Import ListNotations.
Local Open Scope Z_scope.

Lemma to_int32_range z : - 2 ^ 31 <= to_int32 z < 2 ^ 31.
Proof.
  unfold to_int32. pose proof (Z.mod_pos_bound z (2 ^ 32) ltac:(reflexivity)) as B.
  change (2 ^ 32) with 4294967296 in *. change (2 ^ 31) with 2147483648.
  cbv zeta. destruct (Z.ltb_spec (z mod 4294967296) 2147483648); lia.
Qed.
Lemma to_int32_congr z : exists k, to_int32 z = z + k * 2 ^ 32.
Proof.
  unfold to_int32. pose proof (Z.div_mod z (2 ^ 32) ltac:(discriminate)) as D.
  cbv zeta. destruct (z mod 2 ^ 32 <? 2 ^ 31).
  - exists (- (z / 2 ^ 32)). lia.
  - exists (- (z / 2 ^ 32) - 1). lia.
Qed.
Lemma to_int32_id z : - 2 ^ 31 <= z < 2 ^ 31 -> to_int32 z = z.
Proof.
  intros H. pose proof (to_int32_range z) as R. destruct (to_int32_congr z) as [k E].
  change (2 ^ 32) with 4294967296 in *. change (2 ^ 31) with 2147483648 in *. lia.
Qed.
Lemma fits64_spec z : fits64 z = true <-> - 2 ^ 63 <= z < 2 ^ 63.
Proof. unfold fits64. rewrite andb_true_iff, Z.leb_le, Z.ltb_lt. tauto. Qed.

Lemma dataset_new_numbers cast lattice numbers positions pol d :
  dataset_new cast lattice numbers positions pol = Ok d -> ds_numbers d = numbers.
Proof.
  unfold dataset_new. intros H.
  destruct (verify_ndarray_shape (na_shape lattice) _); cbn [rbind] in H; [|discriminate].
  cbn [verify_list_len rbind] in H.
  destruct (verify_ndarray_shape (na_shape positions) _); cbn [rbind] in H; [|discriminate].
  destruct (verify_ndarray_shape (na_shape pol) _); cbn [rbind] in H; [|discriminate].
  destruct (scale_and_flatten cast pol "standard") as [[[? ?] ?]|]; cbn [rbind] in H; [|discriminate].
  injection H as <-. reflexivity.
Qed.

Lemma map_id_Forall (l : list Z) : Forall (fun z => - 2 ^ 31 <= z < 2 ^ 31) l -> map to_int32 l = l.
Proof. induction 1; cbn [map]; [reflexivity|]. rewrite to_int32_id by assumption. now f_equal. Qed.

Lemma f_numbers_fit cast lattice numbers positions pol :
  Forall (fun z => - 2 ^ 31 <= z < 2 ^ 31) numbers ->
  dataset_new_ints cast lattice numbers positions pol = dataset_new cast lattice numbers positions pol.
Proof.
  intros H. unfold dataset_new_ints.
  destruct (dataset_new cast lattice numbers positions pol) as [d|e] eqn:E; cbn [rbind]; [|reflexivity].
  replace (forallb fits64 numbers) with true.
  - rewrite map_id_Forall by assumption. rewrite <- (dataset_new_numbers _ _ _ _ _ _ E) at 1. now destruct d.
  - symmetry. apply forallb_forall. intros z Hz. rewrite Forall_forall in H. apply fits64_spec. specialize (H z Hz).
    change (2 ^ 63) with 9223372036854775808. change (2 ^ 31) with 2147483648 in H. lia.
Qed.

Lemma f_numbers_outcome cast lattice numbers positions pol :
  match dataset_new_ints cast lattice numbers positions pol with
  | Ok d => (exists d0, dataset_new cast lattice numbers positions pol = Ok d0)
            /\ Forall (fun z => - 2 ^ 63 <= z < 2 ^ 63) numbers
            /\ Forall2 (fun z w => - 2 ^ 31 <= w < 2 ^ 31 /\ exists k, w = z + k * 2 ^ 32) numbers (ds_numbers d)
            /\ (atomic_numbers d = Ok numbers <->
                num_samples d <> O /\ Forall (fun z => - 2 ^ 31 <= z < 2 ^ 31) numbers)
  | Err e => dataset_new cast lattice numbers positions pol = Err e \/
             (exists d0, dataset_new cast lattice numbers positions pol = Ok d0) /\ e = RuntimeError
             /\ Exists (fun z => z < - 2 ^ 63 \/ 2 ^ 63 <= z) numbers
  end.
Proof.
  unfold dataset_new_ints.
  destruct (dataset_new cast lattice numbers positions pol) as [d|e] eqn:E; cbn [rbind]; [|now left].
  destruct (forallb fits64 numbers) eqn:F.
  - split; [now exists d|]. cbn [ds_numbers]. split; [|split].
    + apply Forall_forall. intros z Hz. apply fits64_spec. rewrite forallb_forall in F. now apply F.
    + clear. induction numbers as [|z l IH]; cbn [map]; constructor; [|assumption]. split; [apply to_int32_range|].
      destruct (to_int32_congr z) as [k Hk]. now exists k.
    + unfold atomic_numbers, num_samples. cbn [ds_positions ds_numbers].
      destruct (nth 0 (na_shape (ds_positions d)) O).
      * split; [discriminate|intros [H _]; now elim H].
      * split.
        -- intros H. assert (H' : map to_int32 numbers = numbers) by congruence. split; [discriminate|].
           apply Forall_forall. intros z Hz. clear - H' Hz. induction numbers as [|y l IH]; [elim Hz|].
           cbn [map] in H'. injection H' as H1 H2. destruct Hz as [->|Hz]; [|now apply IH]. rewrite <- H1. apply to_int32_range.
        -- intros [_ H]. now rewrite map_id_Forall.
  - right. split; [now exists d|]. split; [reflexivity|].
    apply Exists_exists. clear - F. induction numbers as [|z l IH]; cbn [forallb] in F; [discriminate|].
    destruct (fits64 z) eqn:Z1; cbn [andb] in F.
    + destruct (IH F) as (y & Hy & Py). exists y. split; [now right|assumption].
    + exists z. split; [now left|]. unfold fits64 in Z1. apply andb_false_iff in Z1. rewrite Z.leb_gt, Z.ltb_ge in Z1. exact Z1.
Qed.

(** Two different lists of atomic numbers become the same dataset *)
Lemma f_numbers_clash :
  exists lattice n1 n2 positions pol d, n1 <> n2 /\
    dataset_new_ints (fun x => x) lattice n1 positions pol = Ok d /\
    dataset_new_ints (fun x => x) lattice n2 positions pol = Ok d.
Proof.
  set (z := Fin 0%R).
  exists (mkNarr [3; 3]%nat (repeat z 9)), [1], [4294967297], (mkNarr [1; 1; 3]%nat (repeat z 3)), (mkNarr [1; 3; 3]%nat (repeat z 9)).
  eexists. split; [discriminate|]. split; reflexivity.
Qed.
