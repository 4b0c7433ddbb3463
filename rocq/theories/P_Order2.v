(** Additions in any order: contributions and predictions. *)
From Coq Require Import String ZArith Reals Lra Lia Bool Arith List Permutation.
From Verif Require Import Base LinAlg M_Validate M_StructUtils M_Symmetry M_Reference M_Interp M_Art M_Shared
  S_Lattice S_Vec S_Symmetry S_Equivalent S_Interp S_Images S_Order P_StructUtils P_Symmetry P_Equivalent P_Equiv3 P_EquivTotal P_Interp P_Interp2
  P_Order.
Import ListNotations.
Local Open Scope R_scope.

Definition contrib (art : bool) (s : imodel) (a : adding) : list (list V3) * list spline :=
  let f := fst (fst (run_adding art a (fresh s))) in (im_basis f, im_interp f).
Definition works (art : bool) (s : imodel) (a : adding) : Prop := exists f, adds art a (fresh s) f.

Lemma adds_iff art a s s' : adds art a s s' <->
  Forall (ortho (lead s (parent art a s))) (im_basis s) /\ works art s a /\
  s' = appended s (fst (contrib art s a)) (snd (contrib art s a)).
Proof.
  rewrite adding_split. unfold works, contrib. split; intros (O & H); (split; [exact O|]).
  - destruct H as (bs & sps & (w & H) & ->). split; [do 2 eexists; exact H|]. rewrite H. cbn [fst snd].
    unfold appended. cbn [fresh im_ref im_refpol im_dummy im_basis im_interp im_mask app]. destruct (im_dummy s); auto.
  - destruct H as ((f & w & H) & ->). assert (Hf := ex_intro _ w H : adds art a (fresh s) f).
    apply adding_split in Hf as (_ & bs & sps & _ & ->).
    exists bs, sps. split; [exists w; exact H|]. rewrite H. cbn [fst snd].
    unfold appended. cbn [fresh im_ref im_refpol im_dummy im_basis im_interp im_mask app]. destruct (im_dummy s); auto.
Qed.

Lemma contrib_appended art s bs sps a : contrib art (appended s bs sps) a = contrib art s a.
Proof. reflexivity. Qed.
Lemma works_appended art s bs sps a : works art (appended s bs sps) a = works art s a.
Proof. reflexivity. Qed.
Lemma lead_appended art s bs sps a : lead (appended s bs sps) (parent art a (appended s bs sps)) = lead s (parent art a s).
Proof. destruct a; reflexivity. Qed.

Definition all_basis art s cs := flat_map (fun a => fst (contrib art s a)) cs.
Definition all_interp art s cs := flat_map (fun a => snd (contrib art s a)) cs.
Definition starts art s a : arr V3 := lead s (parent art a s).

Lemma appended_app s b1 i1 b2 i2 : appended (appended s b1 i1) b2 i2 = appended s (b1 ++ b2) (i1 ++ i2).
Proof.
  unfold appended. cbn [im_ref im_refpol im_dummy im_basis im_interp im_mask]. rewrite !app_assoc, app_length, repeat_app, app_assoc.
  destruct (im_dummy s); auto.
Qed.
Lemma appended_nil s : appended s [] [] = s.
Proof. unfold appended. simpl. rewrite !app_nil_r. destruct s as [a b [] d e f]; auto. Qed.

Lemma all_return_iff art cs s s' : all_return art cs s s' <->
  Forall (works art s) cs /\ Forall (fun a => Forall (ortho (starts art s a)) (im_basis s)) cs /\
  ForallOrdPairs (fun a b => Forall (ortho (starts art s b)) (fst (contrib art s a))) cs /\
  s' = appended s (all_basis art s cs) (all_interp art s cs).
Proof.
  revert s s'; induction cs as [|a cs IH]; intros s s'; cbn [all_return].
  - unfold all_basis, all_interp. simpl. rewrite appended_nil. split; [intros ->; repeat split; constructor|tauto].
  - split.
    + intros (m1 & w & H & K). assert (A : adds art a s m1) by (exists w; exact H).
      apply adds_iff in A as (O & W & E). rewrite E in K. apply IH in K as (K1 & K2 & K3 & K4).
      split; [|split; [|split]].
      * constructor; auto.
      * constructor; auto. eapply Forall_impl; [|exact K2]. intros b Hb. unfold starts in Hb. rewrite lead_appended in Hb.
        unfold appended in Hb at 1. cbn [im_basis] in Hb. apply Forall_app in Hb as [Hb _]. exact Hb.
      * constructor.
        -- eapply Forall_impl; [|exact K2]. intros b Hb. unfold starts in Hb. rewrite lead_appended in Hb.
           unfold appended in Hb at 1. cbn [im_basis] in Hb. apply Forall_app in Hb as [_ Hb]. exact Hb.
        -- clear - K3. induction K3 as [|b l Hb Hl IHl]; constructor; auto.
      * rewrite K4, appended_app. reflexivity.
    + intros (K1 & K2 & K3 & K4). inversion K1 as [|? ? W W']; subst. inversion K2 as [|? ? O O']; subst.
      inversion K3 as [|? ? P P']; subst.
      destruct (proj2 (adds_iff art a s (appended s (fst (contrib art s a)) (snd (contrib art s a))))) as (w & H); [auto|].
      eexists _, w. split; [exact H|]. apply IH. split; [|split; [|split]].
      * exact W'.
      * apply Forall_forall. intros b Hb. unfold starts. rewrite lead_appended. unfold appended at 1. cbn [im_basis]. apply Forall_app.
        rewrite Forall_forall in O', P. split; [apply O'|apply P]; auto.
      * clear - P'. induction P' as [|b l Hb Hl IHl]; constructor; auto.
      * rewrite appended_app. reflexivity.
Qed.

(** ** Predictions *)
Section Sum.
Variable spl : nat -> list (R * M3) -> R -> M3.
Variable width : nat.
Variable rows : list (list R).

Definition fits (b : list V3) : bool :=
  Nat.eqb (List.length (flatten_rows b)) width || Nat.eqb width 1 || Nat.eqb (List.length (flatten_rows b)) 1.
Definition contribution (t : list V3 * spline) (acc : list M3) : list M3 :=
  map2 (fun a row => madd a (mscale (1 - b2r false) (eval_spline spl (snd t) (ldot (flatten_rows (fst t)) row)))) acc rows.
Fixpoint sums (ts : list (list V3 * spline)) (acc : list M3) : res (list M3) :=
  match ts with
  | [] => Ok acc
  | t :: ts' => if fits (fst t) then sums ts' (contribution t acc) else Err ValueError
  end.

Lemma sum_dofs_app b1 i1 k1 b2 i2 k2 acc : List.length i1 = List.length b1 -> List.length k1 = List.length b1 ->
  sum_dofs spl width rows (b1 ++ b2) (i1 ++ i2) (k1 ++ k2) acc =
  match sum_dofs spl width rows b1 i1 k1 acc with Ok x => sum_dofs spl width rows b2 i2 k2 x | Err e => Err e end.
Proof.
  revert i1 k1 acc; induction b1 as [|b b1 IH]; intros [|i i1] [|k k1] acc Hi Hk; try discriminate; simpl; auto.
  destruct (Nat.eqb _ _ || _ || _); auto.
Qed.

Lemma sum_dofs_sums bs is acc : List.length is = List.length bs ->
  sum_dofs spl width rows bs is (repeat false (List.length bs)) acc = sums (combine bs is) acc.
Proof.
  revert is acc; induction bs as [|b bs IH]; intros [|i is] acc H; try discriminate; simpl; auto.
  unfold fits. cbn [fst snd]. destruct (Nat.eqb _ _ || _ || _); auto.
Qed.

Lemma contribution_comm t u acc : contribution t (contribution u acc) = contribution u (contribution t acc).
Proof.
  unfold contribution. revert rows; induction acc as [|a acc IH]; intros [|r rs]; simpl; auto. f_equal; auto.
  rewrite <- !madd_assoc. f_equal. apply madd_comm.
Qed.

Lemma sums_err ts acc e : sums ts acc = Err e -> e = ValueError /\ forall acc', sums ts acc' = Err ValueError.
Proof.
  revert acc; induction ts as [|t ts IH]; intros acc; simpl; [discriminate|].
  destruct (fits (fst t)); [|intros [= <-]; auto]. intros H. destruct (IH _ H). auto.
Qed.

Lemma sums_perm ts ts' : Permutation ts ts' -> forall acc, sums ts acc = sums ts' acc.
Proof.
  induction 1 as [|t ts ts' H IH|t u ts|ts ts' ts'' H1 IH1 H2 IH2]; intros acc; simpl; auto.
  - destruct (fits (fst t)); auto.
  - destruct (fits (fst t)), (fits (fst u)); auto. rewrite contribution_comm. auto.
  - rewrite IH1. auto.
Qed.
End Sum.

Lemma combine_flat {A B C} (f : A -> list B) (g : A -> list C) l : (forall a, In a l -> List.length (f a) = List.length (g a)) ->
  combine (flat_map f l) (flat_map g l) = flat_map (fun a => combine (f a) (g a)) l.
Proof.
  induction l as [|a l IH]; simpl; intros H; auto.
  assert (K : forall (x x' : list B) (y y' : list C), List.length x = List.length y -> combine (x ++ x') (y ++ y') = combine x y ++ combine x' y').
  { clear. induction x as [|b x IHx]; intros x' [|c y] y' E; try discriminate; simpl; auto. f_equal. apply IHx. simpl in E. lia. }
  rewrite K by (apply H; auto). rewrite IH; auto.
Qed.

Lemma contrib_lengths art s a : works art s a -> im_dummy s = false ->
  List.length (snd (contrib art s a)) = List.length (fst (contrib art s a)).
Proof.
  intros (f & w & H) D. unfold contrib. rewrite H. cbn [fst snd].
  pose proof (adding_uniform art a (fresh s)) as U. destruct (proj1 (U f) (ex_intro _ w H)) as (_ & w' & bs & sps & G & ->).
  clear U. assert (K : forall x p, run_adding art a = x -> x (fresh s) = ((p, w'), Ok tt) ->
     List.length (im_interp p) = List.length (im_basis p)).
  2: { exact (K _ _ eq_refl G). }
  clear H. intros x p <- R.
  assert (A : forall parent amps pols inc order wq, added (fresh s) parent amps pols inc order wq p -> List.length (im_interp p) = List.length (im_basis p)).
  { intros parent0 am po inc order wq (dofs & bs' & pss & _ & H2 & H3 & _ & _ & ->). unfold appended. cbn [fresh im_dummy im_interp im_basis].
    rewrite D. simpl. rewrite map_length. assert (H3' : List.length dofs = List.length pss) by (clear - H3; induction H3; simpl; auto). apply (f_equal (@List.length _)) in H2. rewrite !map_length in H2. exact (eq_trans (eq_sym H3') H2). }
  assert (B : forall c am po k i wq, add_dof c am po k i (fresh s) = ((p, wq), Ok tt) -> List.length (im_interp p) = List.length (im_basis p)).
  { intros c am po k i wq Q. apply add_dof_cases in Q as [(e & E & _)|(_ & Ho & disp & dofs & bs' & pss & H1 & H2 & H3 & H4 & H5 & H6 & H7 & H8 & H9)]; [discriminate|].
    eapply A. exists dofs, bs', pss. split; [exact H4|]. split; [exact H5|]. split; [exact H6|]. split; [exact H7|]. split; [exact H8|exact H9]. }
  destruct art, a as [c xx pp k i|r k|ps pp k|i d xx pp|r|ps pp]; cbn [run_adding run_op] in R; try discriminate.
  - apply add_art_cases in R as [(e & E & _)|(_ & _ & f & k & _ & _ & R)]; [discriminate|]. eapply B; exact R.
  - unfold add_art_from_files in R. rewrite get_ok in R. apply lift_ok in R as ([[d0 am] po] & _ & R).
    apply add_one_atom_cases in R as [(e & E & _)|(_ & _ & _ & R)]; [discriminate|]. eapply A; exact R.
  - unfold add_art_from_pymatgen in R. rewrite get_ok in R. apply lift_ok in R as (y & _ & R).
    apply add_one_atom_cases in R as [(e & E & _)|(_ & _ & _ & R)]; [discriminate|]. eapply A; exact R.
  - eapply B; exact R.
  - unfold add_dof_from_files in R. rewrite get_ok in R. apply lift_ok in R as ([[d0 am] po] & _ & R). eapply B; exact R.
  - unfold add_dof_from_pymatgen in R. rewrite get_ok in R. apply lift_ok in R as (y & _ & R). eapply B; exact R.
Qed.

Lemma sum_dofs_dummy spl width rows basis mask acc : sum_dofs spl width rows basis [] mask acc =
  match basis, mask with [], [] => Ok acc | _, _ => Err ValueError end.
Proof. destruct basis, mask; auto. Qed.

Lemma f_C91_order art calls calls' m0 m m' : consistent m0 -> Permutation calls calls' ->
  all_return art calls m0 m -> all_return art calls' m0 m' ->
  Permutation (im_basis m) (im_basis m') /\
  forall spl b, calc_polarizabilities spl m b = calc_polarizabilities spl m' b.
Proof.
  intros (C1 & C2 & C3) P H H'. apply all_return_iff in H as (W & _ & _ & ->). apply all_return_iff in H' as (W' & _ & _ & ->).
  assert (PB : Permutation (all_basis art m0 calls) (all_basis art m0 calls')) by (apply Permutation_flat_map; auto).
  split; [unfold appended; cbn [im_basis]; apply Permutation_app_head; auto|].
  intros spl b. unfold calc_polarizabilities. unfold appended. cbn [im_ref im_refpol im_dummy im_basis im_interp im_mask].
  destruct (batch_displacements (im_ref m0) b) as [[width rows]|e]; cbn [rbind]; auto.
  destruct (im_dummy m0) eqn:D.
  - rewrite (C3 eq_refl), !sum_dofs_dummy.
    assert (E: all_basis art m0 calls = [] <-> all_basis art m0 calls' = []).
    { split; intros E; rewrite E in PB; [apply Permutation_nil in PB|apply Permutation_sym, Permutation_nil in PB]; auto. }
    destruct (im_basis m0); simpl; [|auto].
    destruct (all_basis art m0 calls) eqn:E1, (all_basis art m0 calls') eqn:E2; simpl; auto.
    + destruct E as [E _]. discriminate (E eq_refl).
    + destruct E as [_ E]. discriminate (E eq_refl).
  - rewrite !sum_dofs_app by (rewrite ?C2; auto).
    destruct (sum_dofs spl width rows (im_basis m0) (im_interp m0) (im_mask m0) (map (fun _ => LinAlg.m0) rows)) as [acc|e]; auto.
    assert (E : forall cs, Forall (works art m0) cs ->
       sum_dofs spl width rows (all_basis art m0 cs) (all_interp art m0 cs) (repeat false (List.length (all_basis art m0 cs))) acc
       = sums spl width rows (flat_map (fun a => combine (fst (contrib art m0 a)) (snd (contrib art m0 a))) cs) acc).
    { intros cs Wc. rewrite Forall_forall in Wc. rewrite sum_dofs_sums.
      - unfold all_basis, all_interp. rewrite combine_flat; auto. intros a Ha. symmetry. apply contrib_lengths; auto.
      - unfold all_basis, all_interp. induction cs as [|a cs IH]; [reflexivity|]. cbn [flat_map]. rewrite !app_length, IH by (intros; apply Wc; simpl; auto).
        rewrite contrib_lengths; auto. apply Wc. simpl; auto. }
    rewrite (E calls W), (E calls' W').
    rewrite (sums_perm spl width rows _ _ (Permutation_flat_map (fun a => combine (fst (contrib art m0 a)) (snd (contrib art m0 a))) P)). auto.
Qed.
