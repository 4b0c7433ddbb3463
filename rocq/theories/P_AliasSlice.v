(** Slices of a trajectory are views: which frames they show (C73, C75). *)
From Coq Require Import String ZArith Reals Bool Arith Lia List.
From Verif Require Import Base LinAlg M_Validate M_StructUtils M_Interp M_Spectrum M_Reference M_Dynamics M_Alias S_Spectrum S_Alias P_Dynamics2 P_Alias P_Alias2 P_Alias3.
Import ListNotations.
Local Open Scope nat_scope.
#[local] Arguments load _ _ : simpl never.
#[local] Arguments buffer _ _ : simpl never.
#[local] Arguments np_row _ _ : simpl never.

Lemma slice_range n start stop step k : step <> 0%Z ->
  before (slice_start (Z.of_nat n) start step + Z.of_nat k * step) (slice_stop (Z.of_nat n) stop step) step ->
  (0 <= slice_start (Z.of_nat n) start step + Z.of_nat k * step < Z.of_nat n)%Z.
Proof.
  intros N H. unfold before, slice_start, slice_stop, from_end in *. destruct (Z.ltb_spec 0 step).
  - destruct start as [i|], stop as [j|]; repeat match goal with |- context [Z.ltb ?a ?b] => destruct (Z.ltb_spec a b) end; try nia.
  - destruct start as [i|], stop as [j|]; repeat match goal with |- context [Z.ltb ?a ?b] => destruct (Z.ltb_spec a b) end; try nia.
Qed.
Lemma nth_error_rows (f : nat -> list nat) rs is : (forall q, In q is -> List.length (f q) = rs) -> forall k q r, nth_error is k = Some q -> r < rs ->
  nth_error (flat_map f is) (k * rs + r) = nth_error (f q) r.
Proof.
  induction is as [|q0 is IH]; intros L k q r Hk Hr; [destruct k; discriminate|]. cbn [flat_map]. pose proof (L q0 (or_introl eq_refl)) as L0. destruct k as [|k]; cbn [nth_error] in Hk.
  - injection Hk as ->. cbn [Nat.mul Nat.add]. apply nth_error_app1. lia.
  - rewrite nth_error_app2 by lia. rewrite L0. replace (S k * rs + r - rs) with (k * rs + r) by lia. apply IH; auto. intros q' Q. apply L. right. exact Q.
Qed.

Lemma f_C73_slices_leak k s i t dt start stop step j n c e sh old :
  sound s -> nth_error (st_objs s) i = Some (OTrajectory t dt) -> ordinary (st_mem s) t ->
  perform k s (GetSlice i start stop (Some step)) = Ok e ->
  answer k s (Property i PositionsTs) = Ok [SArr sh old] -> List.length old = prod_list sh ->
  let frames := Z.of_nat (hd 0 sh) in
  let frame := (slice_start frames start step + Z.of_nat j * step)%Z in
  before frame (slice_stop frames stop step) step -> n < prod_list (tl sh) ->
  answer k (run k s [GetSlice i start stop (Some step); Write (List.length (st_held s)) (j * prod_list (tl sh) + n) c]) (Property i PositionsTs)
  = Ok [SArr sh (set_nth (Z.to_nat frame * prod_list (tl sh) + n) c old)].
Proof.
  intros Hs Ho Hw He Hr Hlen frames frame Hb Hn. destruct e as [[m' hs] os].
  prop_in Ho Hr.
  destruct hs as [|h hs].
  { exfalso. unfold perform, with_obj in He. rewrite Ho in He. unfold gives1 in He. destruct (get_slice _ _ _ _); cbn in He; discriminate. }
  assert (N : step <> 0%Z). { intros ->. unfold perform, with_obj in He. rewrite Ho in He. cbn in He. discriminate. }
  pose proof (slice_range (hd 0 (a_shape t)) start stop step j N Hb) as R. fold frames frame in R.
  assert (SH : exists n0 rest, a_shape t = n0 :: rest). { destruct (a_shape t) as [|n0 rest]; [cbn in R; unfold frames in R; cbn in R; lia|eauto]. }
  assert (LC : List.length (a_cells t) = hd 0 (a_shape t) * prod_list (tl (a_shape t))).
  { unfold load in Hlen. rewrite ?map_length, ?seq_length, ?map_length in Hlen. destruct SH as (n0 & rest & E). rewrite E in *. cbn [hd tl]. rewrite Hlen. reflexivity. }
  assert (Q : Z.to_nat frame * prod_list (tl (a_shape t)) + n < List.length (a_cells t)).
  { rewrite LC. assert (Z.to_nat frame < hd 0 (a_shape t)) by (unfold frames in *; lia). nia. }
  destruct (nth_error (a_cells t) (Z.to_nat frame * prod_list (tl (a_shape t)) + n)) as [cellno|] eqn:Hj; [|apply nth_error_None in Hj; lia].
  cbn [run fold_left]. rewrite (step_ok _ _ _ _ _ _ He).
  unfold perform, with_obj in He. rewrite Ho in He. cbn [get_slice] in He. destruct (Z.eqb_spec step 0) as [Z0|_]; [contradiction|].
  rewrite slice_bounds_spec in He by auto. cbn -[slice_count seq] in He. injection He as <- <- <- <-.
  cbn [fst snd map]. erewrite step_write by (cbn [st_held]; apply held_first). cbn [st_mem st_held st_objs].
  rewrite !app_nil_r.
  match goal with |- answer k ?s2 _ = _ =>
    assert (H2 : nth_error (st_objs s2) i = Some (OTrajectory t dt)) by exact Ho end.
  prop_read H2. do 3 f_equal.
  match goal with |- context [store _ ?v _ _] => apply (load_store _ t v _ _ cellno); auto end.
  cbn [a_cells np_rows].
  assert (F : forall (l : list nat) r, n < r -> nth_error (firstn r l) n = nth_error l n).
  { clear. revert n; induction n as [|n IH]; intros [|x l] [|r] H; cbn; auto; try lia. apply IH; lia. }
  assert (G : forall p (l : list nat), nth_error (skipn p l) n = nth_error l (p + n)).
  { clear. induction p as [|p IH]; intros [|x l]; cbn; auto. destruct n; auto. }
  rewrite (nth_error_rows _ (prod_list (tl (a_shape t)))) with (q := Z.to_nat frame); auto.
  - unfold row_cells, row_size. rewrite F by auto. rewrite G. exact Hj.
  - intros q Hq. apply in_map_iff in Hq. destruct Hq as (j' & <- & Hq). apply in_seq in Hq. cbn [Nat.add] in Hq. destruct Hq as [_ Hq]. apply slice_count_spec in Hq; auto.
    pose proof (slice_range _ _ _ _ _ N Hq) as R'. unfold row_cells, row_size. rewrite firstn_length, skipn_length, LC.
    match type of R' with (0 <= ?z < _)%Z => assert (Z.to_nat z < hd 0 (a_shape t)) by lia; set (p := Z.to_nat z) in * end. nia.
  - rewrite nth_error_map. replace (nth_error (seq 0 _) j) with (Some j); [reflexivity|]. symmetry.
    match goal with |- nth_error (seq 0 ?m) j = _ => assert (j < m) by (apply slice_count_spec; auto); rewrite (nth_error_nth' (seq 0 m) 0) by (rewrite seq_length; lia); rewrite seq_nth by lia end. reflexivity.
Qed.
