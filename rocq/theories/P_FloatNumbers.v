(** Proofs about floats in the list of atomic numbers *)
From Coq Require Import String ZArith Reals Bool List Lia Lra.
From Verif Require Import Base LinAlg M_Validate M_Text M_Poscar M_Dataset M_Int32 P_Dataset2 P_Int32 M_FloatNumbers S_FloatNumbers.
Import ListNotations.
Local Open Scope R_scope.

Lemma floor_spec r : IZR (Int_part r) <= r < IZR (Int_part r) + 1.
Proof. destruct (base_Int_part r) as [A B]. lra. Qed.
Lemma floor_IZR z : Int_part (IZR z) = z.
Proof.
  destruct (floor_spec (IZR z)) as [A B]. apply le_IZR in A. change 1 with (IZR 1) in B. rewrite <- plus_IZR in B. apply lt_IZR in B. lia.
Qed.
Lemma truncated_spec u r : Rabs r < 2 ^ 31 -> exists w, truncated u (Fin r) = w /\ Rabs (IZR w) <= Rabs r < Rabs (IZR w) + 1 /\ 0 <= IZR w * r.
Proof.
  intros H. assert (H' : Rabs r < IZR (2 ^ 31)). { replace (IZR (2 ^ 31)) with (2 ^ 31); [exact H|]. change (2 ^ 31)%Z with (2147483648)%Z. lra. }
  unfold truncated. cbv zeta. destruct (Rle_dec 0 r) as [L | L].
  - destruct (floor_spec r) as [A B]. assert (P : (0 <= Int_part r)%Z). { apply Z.lt_succ_r. apply lt_IZR. rewrite succ_IZR. lra. }
    rewrite (Rabs_right r) in * by lra. assert (Q : (Int_part r < 2 ^ 31)%Z) by (apply lt_IZR; lra).
    replace ((- 2 ^ 31 <=? Int_part r)%Z && (Int_part r <? 2 ^ 31)%Z) with true by (symmetry; apply andb_true_iff; split; [apply Z.leb_le; lia|apply Z.ltb_lt; exact Q]).
    exists (Int_part r). split; [reflexivity|]. apply IZR_le in P. rewrite Rabs_right by lra. split; [lra|]. apply Rmult_le_pos; lra.
  - destruct (floor_spec (- r)) as [A B]. assert (P : (0 <= Int_part (- r))%Z). { apply Z.lt_succ_r. apply lt_IZR. rewrite succ_IZR. lra. }
    rewrite (Rabs_left r) in * by lra. assert (Q : (Int_part (- r) < 2 ^ 31)%Z) by (apply lt_IZR; lra).
    replace ((- 2 ^ 31 <=? - Int_part (- r))%Z && (- Int_part (- r) <? 2 ^ 31)%Z) with true by (symmetry; apply andb_true_iff; split; [apply Z.leb_le; lia|apply Z.ltb_lt; lia]).
    exists (- Int_part (- r))%Z. split; [reflexivity|]. apply IZR_le in P. rewrite opp_IZR, Rabs_Ropp, Rabs_right by lra. split; [lra|]. replace (- IZR (Int_part (- r)) * r) with (IZR (Int_part (- r)) * - r) by ring. apply Rmult_le_pos; lra.
Qed.
Lemma truncated_whole u z : (- 2 ^ 31 <= z < 2 ^ 31)%Z -> truncated u (Fin (IZR z)) = z.
Proof.
  intros H. unfold truncated. cbv zeta.
  assert (E : (if Rle_dec 0 (IZR z) then Int_part (IZR z) else (- Int_part (- IZR z))%Z) = z). { rewrite <- opp_IZR, !floor_IZR. destruct (Rle_dec _ _); lia. }
  rewrite E. replace ((- 2 ^ 31 <=? z)%Z && (z <? 2 ^ 31)%Z) with true; [reflexivity|]. symmetry. apply andb_true_iff. split; [apply Z.leb_le|apply Z.ltb_lt]; apply H.
Qed.
Lemma wholes_none l : (exists x, In (Float x) l) <-> wholes l = None.
Proof.
  split.
  - intros (x & H). induction l as [|[z|y] l IH]; [contradiction| |reflexivity]. cbn. destruct H as [H | H]; [discriminate|]. rewrite (IH H). reflexivity.
  - induction l as [|[z|y] l IH]; cbn; [discriminate| |intros _; exists y; left; reflexivity]. destruct (wholes l) eqn:E; [discriminate|]. intros _. destruct (IH eq_refl) as (x & H). exists x. right. exact H.
Qed.
Lemma wholes_some l : wholes (map Whole l) = Some l.
Proof. induction l as [|z l IH]; [reflexivity|]. cbn. rewrite IH. reflexivity. Qed.
Lemma dataset_new_same_length cast lattice n1 n2 positions pol : List.length n1 = List.length n2 ->
  dataset_new cast lattice n2 positions pol = match dataset_new cast lattice n1 positions pol with Ok d => Ok (mkDataset (ds_lattice d) n2 (ds_positions d) (ds_raw d) (ds_scaled d)) | Err e => Err e end.
Proof.
  intros H. unfold dataset_new. rewrite H. destruct (verify_ndarray_shape (na_shape lattice) _); cbn [rbind]; [|reflexivity]. cbn [verify_list_len rbind].
  destruct (verify_ndarray_shape (na_shape positions) _); cbn [rbind]; [|reflexivity]. destruct (verify_ndarray_shape (na_shape pol) _); cbn [rbind]; [|reflexivity].
  destruct (scale_and_flatten cast pol "standard") as [[[? ?] ?]|]; reflexivity.
Qed.

Lemma stands_value n x : stands_for n x -> value n = x.
Proof. intros [-> | (z & -> & ->)]; reflexivity. Qed.
Lemma f_C78_whole cast undefined lattice ints positions pol : dataset_new_any cast undefined lattice (map Whole ints) positions pol = dataset_new_ints cast lattice ints positions pol.
Proof. unfold dataset_new_any. rewrite wholes_some. reflexivity. Qed.
Lemma f_C78_floats cast undefined lattice numbers positions pol : (exists x, In (Float x) numbers) ->
  forall some, List.length some = List.length numbers ->
  match dataset_new_any cast undefined lattice numbers positions pol, dataset_new cast lattice some positions pol with
  | Ok d, Ok d0 => ds_lattice d = ds_lattice d0 /\ ds_positions d = ds_positions d0 /\ ds_raw d = ds_raw d0 /\ ds_scaled d = ds_scaled d0 /\
      Forall2 (fun n w => forall x r, stands_for n x -> cast x = Fin r -> Rabs r < 2 ^ 31 -> Rabs (IZR w) <= Rabs r < Rabs (IZR w) + 1 /\ 0 <= IZR w * r) numbers (ds_numbers d)
  | Err e, Err e0 => e = e0
  | _, _ => False
  end.
Proof.
  intros HF some HL. unfold dataset_new_any. rewrite (proj1 (wholes_none numbers) HF).
  rewrite (dataset_new_same_length cast lattice some _ positions pol) by (rewrite map_length; exact HL).
  destruct (dataset_new cast lattice some positions pol) as [d0|e]; [|reflexivity]. cbn. repeat (split; [reflexivity|]).
  clear. induction numbers as [|n l IH]; constructor; [|exact IH]. intros x r SF E H. rewrite (stands_value n x SF), E. destruct (truncated_spec undefined r H) as (w & -> & K). exact K.
Qed.
Lemma f_C78_float_whole cast undefined lattice numbers ints positions pol : (exists x, In (Float x) numbers) ->
  Forall2 (fun n z => stands_for n (Fin (IZR z)) /\ cast (Fin (IZR z)) = Fin (IZR z) /\ (- 2 ^ 31 <= z < 2 ^ 31)%Z) numbers ints ->
  dataset_new_any cast undefined lattice numbers positions pol = dataset_new cast lattice ints positions pol.
Proof.
  intros HF H. unfold dataset_new_any. rewrite (proj1 (wholes_none numbers) HF). f_equal. clear HF. induction H as [|n z l m (E1 & E2 & B) _ IH]; [reflexivity|]. apply stands_value in E1. cbn [map]. rewrite IH, E1, E2, truncated_whole by exact B. reflexivity.
Qed.
Lemma f_C78_float_refuted : exists lattice n1 n2 positions pol d, n1 = [Float (Fin (19 / 10))] /\ n2 = [Whole 1] /\
  dataset_new_any (fun x => x) (fun _ => 0%Z) lattice n1 positions pol = Ok d /\
  dataset_new_any (fun x => x) (fun _ => 0%Z) lattice n2 positions pol = Ok d.
Proof.
  exists (mkNarr [3; 3]%nat (repeat (Fin 1) 9)), [Float (Fin (19 / 10))], [Whole 1], (mkNarr [2; 1; 3]%nat (repeat (Fin 0) 6)), (mkNarr [2; 3; 3]%nat (repeat (Fin 1) 18)).
  assert (E : truncated (fun _ => 0%Z) (Fin (19 / 10)) = 1%Z).
  { unfold truncated. cbv zeta. destruct (Rle_dec 0 (19 / 10)) as [L | L]; [|lra]. assert (I : Int_part (19 / 10) = 1%Z). { destruct (floor_spec (19 / 10)) as [A B]. assert (Int_part (19 / 10) < 2)%Z by (apply lt_IZR; lra). assert (0 < Int_part (19 / 10))%Z by (apply lt_IZR; lra). lia. } rewrite I. reflexivity. }
  eexists. split; [reflexivity|]. split; [reflexivity|]. unfold dataset_new_any. cbn [wholes option_map map value]. rewrite E. split; [|rewrite f_numbers_fit by (repeat constructor; discriminate)]; unfold dataset_new; cbn [na_shape List.length]; reflexivity.
Qed.
Lemma ex_C78_floats : (exists x, In (Float x) [Float (Fin 8); Whole 22; Float (Fin (- 5 / 2))]) /\
  map (fun n => truncated (fun _ => 0%Z) (value n)) [Float (Fin 8); Whole 22; Float (Fin (- 5 / 2))] = [8; 22; -2]%Z /\
  Forall2 (fun n z => stands_for n (Fin (IZR z)) /\ (- 2 ^ 31 <= z < 2 ^ 31)%Z) [Float (Fin 8); Whole 22] [8; 22]%Z.
Proof.
  split; [exists (Fin 8); left; reflexivity|]. split.
  - cbn [map value]. rewrite (truncated_whole _ 8), (truncated_whole _ 22) by (split; [discriminate|reflexivity]). do 3 f_equal.
    unfold truncated. cbv zeta. destruct (Rle_dec 0 (- 5 / 2)) as [L | L]; [lra|]. assert (I : Int_part (- (- 5 / 2)) = 2%Z). { destruct (floor_spec (- (- 5 / 2))) as [A B]. assert (Int_part (- (- 5 / 2)) < 3)%Z by (apply lt_IZR; lra). assert (1 < Int_part (- (- 5 / 2)))%Z by (apply lt_IZR; lra). lia. } rewrite I. reflexivity.
  - constructor; [split; [left; reflexivity|split; [discriminate|reflexivity]]|]. constructor; [split; [right; eexists; split; reflexivity|split; [discriminate|reflexivity]]|constructor].
Qed.
