(** Datasets read from files that hold any numbers: C64. *)
From Coq Require Import String ZArith NArith Reals Bool Arith List Lia Lra.
From Verif Require Import Base LinAlg M_Validate M_Text M_Poscar M_Outcar M_Vasprun M_Dataset S_Dataset S_Readings P_Outcar P_Dataset P_Dataset2 P_Dataset3.
Import ListNotations.
Local Open Scope nat_scope.

Lemma close_iff x y : num_close x y = true <-> near x y.
Proof.
  destruct x as [a|s|], y as [b|t|]; cbn [num_close]; split; intros H; try discriminate; try (inversion H; fail).
  - constructor. apply Rleb_iff. exact H.
  - inversion H; subst. apply Rleb_iff. assumption.
  - apply eqb_prop in H. subst. constructor.
  - inversion H; subst. apply eqb_reflx.
Qed.
Lemma list9 {A} (l : list A) : List.length l = 9 -> exists a b c d e f g h i, l = [a; b; c; d; e; f; g; h; i].
Proof. intros H. do 9 (destruct l as [|? l]; [discriminate|]). destruct l; [|discriminate]. do 9 eexists. reflexivity. Qed.
Lemma allclose_any a b : narr_wf a -> na_shape a = [3; 3] -> narr_wf b -> na_shape b = [3; 3] ->
  exists c, np_allclose a b = Ok c /\ (c = true <-> near_lattices a b).
Proof.
  destruct a as [sa da], b as [sb db]. unfold narr_wf. cbn [na_shape na_data]. intros WA -> WB ->.
  destruct (list9 da WA) as (a0 & a1 & a2 & a3 & a4 & a5 & a6 & a7 & a8 & ->). destruct (list9 db WB) as (b0 & b1 & b2 & b3 & b4 & b5 & b6 & b7 & b8 & ->). clear WA WB.
  eexists. split; [unfold np_allclose; cbn -[num_close entry_at]; reflexivity|].
  unfold entry_at. cbn -[num_close]. rewrite !andb_true_iff, !close_iff. unfold near_lattices. split.
  - intros H i j x y [F1 E1] [_ E2]. inversion F1 as [|? ? ? ? Hi F1']; subst. inversion F1' as [|? ? ? ? Hj F1'']; subst.
    destruct i as [|[|[|i]]]; [| | |lia]; (destruct j as [|[|[|j]]]; [| | |lia]); cbn in E1, E2; injection E1 as <-; injection E2 as <-; tauto.
  - intros H. assert (G : forall i j x y, i < 3 -> j < 3 -> nth_error [a0; a1; a2; a3; a4; a5; a6; a7; a8] (i * 3 + j) = Some x -> nth_error [b0; b1; b2; b3; b4; b5; b6; b7; b8] (i * 3 + j) = Some y -> near x y).
    { intros i j x y Hi Hj Ex Ey. apply (H i j); (split; [constructor; [assumption|constructor; [assumption|constructor]]|]); cbn [na_shape na_data offset prod_list fold_right]; replace (i * (3 * 1) + (j * 1 + 0)) with (i * 3 + j) by lia; assumption. }
    repeat split; [apply (G 0 0)|apply (G 0 1)|apply (G 0 2)|apply (G 1 0)|apply (G 1 1)|apply (G 1 2)|apply (G 2 0)|apply (G 2 1)|apply (G 2 2)]; (lia || reflexivity).
Qed.
Fixpoint linked (l : narr) (z : list Z) (os : list output) : Prop :=
  match os with
  | [] => True
  | o :: os' => near_lattices l (o_lattice o) /\ z = o_numbers o /\ linked (o_lattice o) z os'
  end.
Lemma linked_iff o os : linked (o_lattice o) (o_numbers o) os <-> agreeing (o :: os).
Proof.
  split.
  - intros H. assert (G : forall l z, linked l z os -> (forall i a b, nth_error os i = Some a -> nth_error os (S i) = Some b -> near_lattices (o_lattice a) (o_lattice b)) /\ Forall (fun a => o_numbers a = z) os).
    { clear H. induction os as [|b os IH]; intros l z H; [split; [intros [|i] ? ? E; discriminate|constructor]|]. cbn in H. destruct H as (H1 & H2 & H3).
      destruct (IH _ _ H3) as [I1 I2]. split; [|constructor; [congruence|exact I2]]. intros [|i] x y Hx Hy; [|exact (I1 i x y Hx Hy)]. injection Hx as <-.
      cbn in Hy. destruct os as [|c os]; [discriminate|]. injection Hy as <-. cbn in H3. tauto. }
    destruct (G _ _ H) as [G1 G2]. split.
    + intros [|i] x y Hx Hy; [|exact (G1 i x y Hx Hy)]. injection Hx as <-. destruct os as [|c os]; [discriminate|]. injection Hy as <-. cbn in H. tauto.
    + assert (A : forall x, In x (o :: os) -> o_numbers x = o_numbers o) by (intros x [<-|Hx]; [reflexivity|]; rewrite Forall_forall in G2; auto).
      intros x y Hx Hy. rewrite (A x Hx), (A y Hy). reflexivity.
  - intros [C S]. assert (A : Forall (fun a => o_numbers o = o_numbers a) os) by (apply Forall_forall; intros a Ha; apply S; [left; reflexivity|right; exact Ha]).
    clear S. revert A. generalize (o_numbers o) as z. intros z A. revert o C. induction os as [|b os IH]; intros o C; [exact I|]. inversion A; subst. cbn. split; [|split].
    + apply (C 0 o b); reflexivity.
    + reflexivity.
    + apply IH; [assumption|]. intros i x y Hx Hy. apply (C (Datatypes.S i) x y Hx Hy).
Qed.
Section Reading.
Context {Path : Type} (read_fn : Path -> res (narr * list Z * narr * narr)).
Lemma run_any : forall paths os, Forall2 (fun p o => read_fn p = Ok o) paths os -> Forall formed os -> forall idx l z x0 ps pol,
  narr_wf l -> na_shape l = [3; 3] -> na_shape x0 = [List.length z; 3] ->
  let go := dataset_loop read_fn (S idx) l z (x0 :: ps) pol paths in
  (linked l z os -> go = Ok (last (map o_lattice os) l, z, x0 :: (ps ++ map o_positions os), pol ++ map o_polarizability os)) /\
  (~ linked l z os -> go = Err IncompatibleStructureException).
Proof.
  intros paths os H. induction H as [|p o paths os Hp _ IH]; intros Hw idx l z x0 ps pol WL SL SX go; unfold go.
  - split; [|cbn; tauto]. intros _. cbn [dataset_loop map last]. rewrite !app_nil_r. reflexivity.
  - inversion Hw as [|? ? (W1 & W2 & W3 & W4) Hw']; subst. cbn [dataset_loop linked]. rewrite Hp. destruct o as [[[l' z'] x'] a']. cbn [o_lattice o_numbers o_positions o_polarizability fst snd] in *.
    cbn [rbind Nat.eqb]. destruct (allclose_any l l' WL SL W1 W2) as (c & -> & Hc). cbn [rbind]. destruct c; cbn [negb].
    + assert (N : near_lattices l l') by (apply Hc; reflexivity). destruct (znumbers_eqb z z') eqn:E; cbn [negb].
      * apply znumbers_iff in E. subst z'. rewrite SX, W3, shape_refl. cbn [negb rbind app].
        destruct (IH Hw' (S idx) l' z x0 (ps ++ [x']) (pol ++ [a']) W1 W2 SX) as [I1 I2]. split.
        -- intros (_ & _ & L). rewrite (I1 L). cbn [map]. rewrite last_cons, <- !app_assoc. reflexivity.
        -- intros L. apply I2. tauto.
      * split; [|reflexivity]. intros (_ & E' & _). apply znumbers_iff in E'. congruence.
    + split; [|reflexivity]. intros (N & _). apply Hc in N. discriminate.
Qed.
Lemma f_C64_any_reads cast paths o os : Forall2 (fun p o => read_fn p = Ok o) paths (o :: os) -> Forall formed (o :: os) ->
  (agreeing (o :: os) ->
     exists d, read_dataset read_fn true cast paths = Ok d /\
       ds_lattice d = cast_all cast (o_lattice (last os o)) /\ ds_numbers d = o_numbers o /\
       ds_positions d = cast_all cast (stacked (map o_positions (o :: os)) [List.length (o_numbers o); 3]) /\
       ds_raw d = stacked (map o_polarizability (o :: os)) [3; 3]) /\
  (~ agreeing (o :: os) -> read_dataset read_fn true cast paths = Err IncompatibleStructureException).
Proof.
  intros H W. inversion H as [|p ? paths' ? Hp H']; subst. inversion W as [|? ? Wo W']; subst. rewrite <- linked_iff.
  unfold read_dataset. cbn [negb dataset_loop]. rewrite Hp. pose proof Wo as (W1 & W2 & W3 & W4).
  destruct (run_any paths' os H' W' 0 (o_lattice o) (o_numbers o) (o_positions o) [] [o_polarizability o] W1 W2 W3) as [L1 L2].
  replace (let* (l, z, x, a) := Ok o in let* _ := if Nat.eqb 0 0 then Ok tt else _ in dataset_loop read_fn 1 l z ([] ++ [x]) ([] ++ [a]) paths')
    with (dataset_loop read_fn 1 (o_lattice o) (o_numbers o) [o_positions o] [o_polarizability o] paths') by (destruct o as [[[? ?] ?] ?]; reflexivity).
  split.
  - intros C. rewrite (L1 C). cbn [rbind app].
    assert (SH : Forall (fun x => na_shape (o_positions x) = [List.length (o_numbers o); 3] /\ na_shape (o_polarizability x) = [3; 3] /\ na_shape (o_lattice x) = [3; 3]) (o :: os)).
    { apply linked_iff in C. destruct C as [_ S]. apply Forall_forall. intros x Hx. rewrite Forall_forall in W. destruct (W x Hx) as (X1 & X2 & X3 & X4).
      rewrite X3. rewrite (S x o Hx (or_introl eq_refl)). auto. }
    rewrite (stack_same (o_positions o :: map o_positions os) [List.length (o_numbers o); 3]); [|discriminate|].
    2: { change (o_positions o :: map o_positions os) with (map o_positions (o :: os)). apply Forall_forall. intros x Hx. apply in_map_iff in Hx. destruct Hx as (y & <- & Hy). rewrite Forall_forall in SH. apply SH, Hy. }
    cbn [rbind]. rewrite (stack_same (o_polarizability o :: map o_polarizability os) [3; 3]); [|discriminate|].
    2: { change (o_polarizability o :: map o_polarizability os) with (map o_polarizability (o :: os)). apply Forall_forall. intros x Hx. apply in_map_iff in Hx. destruct Hx as (y & <- & Hy). rewrite Forall_forall in SH. apply SH, Hy. }
    cbn [rbind].
    assert (LL : last (map o_lattice os) (o_lattice o) = o_lattice (last os o)) by (clear; revert o; induction os as [|b os IH]; intros o; [reflexivity|]; cbn [map]; rewrite !last_cons; apply IH).
    rewrite LL. match goal with |- context [dataset_new cast ?l ?z ?ps ?pl] => destruct (proj2 (f_C78_new cast l z ps pl)) as [d Hd] end.
    { split.
      - assert (I : In (last os o) (o :: os)) by (clear; revert o; induction os as [|b os IH]; intros o; [left; reflexivity|]; rewrite last_cons; right; apply IH).
        rewrite Forall_forall in SH. apply (SH _ I).
      - exists (S (List.length os)). cbn [na_shape List.length]. rewrite !map_length. auto. }
    exists d. split; [exact Hd|]. apply new_ok in Hd. subst d. cbn [ds_lattice ds_numbers ds_positions ds_raw]. auto.
  - intros C. rewrite (L2 C). reflexivity.
Qed.
End Reading.
(** A lattice with NaN agrees with no lattice, not even itself *)
Lemma f_C64_nan a b i j : narr_wf b -> na_shape a = na_shape b -> entry a [i; j] NaN -> ~ near_lattices a b.
Proof.
  intros W S E N. assert (X : exists y, entry b [i; j] y).
  { destruct E as [F E]. unfold entry. rewrite <- S. destruct (nth_error (na_data b) (offset (na_shape a) [i; j])) as [y|] eqn:Q; [exists y; auto|].
    exfalso. apply nth_error_None in Q. unfold narr_wf in W. rewrite W, <- S in Q. inversion F as [|? n ? sh Hi F1 E1 E2]; subst. inversion F1 as [|? m ? sh' Hj F2 E3 E4]; subst. inversion F2; subst.
    rewrite <- E2 in Q. cbn in Q. nia. }
  destruct X as [y Y]. specialize (N _ _ _ _ E Y). inversion N.
Qed.
