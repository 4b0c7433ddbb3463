(** Any Python values given to the structure utilities and as paths: lemmas *)
From Coq Require Import String ZArith NArith Reals Bool Arith List Lia Lra.
From Verif Require Import Base LinAlg M_Validate M_Text M_Poscar M_Outcar M_Vasprun M_Dataset M_Args M_Arrays M_Values
  S_Lattice S_Dataset S_Arrays S_Args S_Values P_Arrays P_Args.
Import ListNotations.
Local Open Scope nat_scope.

Lemma narr_eta : forall a, mkNarr (na_shape a) (na_data a) = a.
Proof. intros [s d]; reflexivity. Qed.
Lemma numeric_operand : forall v a, numeric v a -> operand v = a.
Proof. intros v a [->|(t & x & -> & ->)]; [apply narr_eta|reflexivity]. Qed.
Lemma numeric_of : forall a, numeric (of_narr a) a.
Proof. intros a. left. reflexivity. Qed.

Lemma pbc_num : forall v a, numeric v a -> exists w, apply_pbc_v v = Done w /\ numeric w (apply_pbc_array a).
Proof.
  intros v a [->|(t & x & -> & ->)]; simpl.
  - eexists. split; [reflexivity|]. rewrite narr_eta. apply numeric_of.
  - eexists. split; [reflexivity|]. right. eexists. eexists. split; reflexivity.
Qed.
Lemma pbc_bad : forall v, not_numeric v -> apply_pbc_v v = Raise TypeError (about_type (txt "positions") (txt "ndarray") v).
Proof.
  intros [t x|s|l|s d|s d|t] [H K]; try reflexivity.
  - exfalso. apply (H (mkNarr [] [x])). right. eauto.
  - exfalso. apply (H (mkNarr s d)). left. reflexivity.
Qed.
Lemma pbcd_num : forall bf v a, numeric v a -> apply_pbc_displacement_v bf v = Done (of_narr (apply_pbc_displacement_array a)).
Proof.
  intros bf v a [->|(t & x & -> & ->)]; simpl; [|reflexivity]. rewrite narr_eta. reflexivity.
Qed.
Lemma pbcd_bad : forall bf v, not_numeric v -> (forall s, v = VStr s -> bf s = None) ->
  apply_pbc_displacement_v bf v = Raise TypeError (about_type (txt "displacement") (txt "ndarray") v).
Proof.
  intros bf [t x|s|l|s d|s d|t] [H K] B; try reflexivity.
  - exfalso. apply (H (mkNarr [] [x])). right. eauto.
  - simpl. rewrite (B s eq_refl). reflexivity.
  - exfalso. apply (H (mkNarr s d)). left. reflexivity.
Qed.

Lemma f_C98_wrap : forall v,
  (forall a, numeric v a -> exists w b, apply_pbc_v v = Done w /\ numeric w b /\ na_shape b = na_shape a /\
     Forall2 (wrapped_to cell_image) (na_data a) (na_data b)) /\
  (not_numeric v -> apply_pbc_v v = Raise TypeError (about_type (txt "positions") (txt "ndarray") v)).
Proof.
  intros v. split.
  - intros a H. destruct (pbc_num v a H) as (w & E & N). exists w, (apply_pbc_array a).
    destruct (f_C01_any a) as [S F]. auto.
  - apply pbc_bad.
Qed.
Lemma f_C98_wrap_displacement : forall bf v,
  (forall a, numeric v a -> exists w b, apply_pbc_displacement_v bf v = Done w /\ numeric w b /\ na_shape b = na_shape a /\
     Forall2 (wrapped_to half_image) (na_data a) (na_data b)) /\
  (not_numeric v -> (forall s, v = VStr s -> bf s = None) ->
     apply_pbc_displacement_v bf v = Raise TypeError (about_type (txt "displacement") (txt "ndarray") v)) /\
  (forall s m, v = VStr s -> bf s = Some m -> apply_pbc_displacement_v bf v = Raise ValueError m).
Proof.
  intros bf v. split; [|split].
  - intros a H. exists (of_narr (apply_pbc_displacement_array a)), (apply_pbc_displacement_array a).
    destruct (f_C02_any a) as [S F]. rewrite (pbcd_num bf v a H). split; [reflexivity|]. split; [apply numeric_of|]. auto.
  - apply pbcd_bad.
  - intros s m -> B. simpl. rewrite B. reflexivity.
Qed.

Lemma f_C98_displace : forall nb bf p d,
  (not_numeric p -> displace_positions_v nb bf p d = Raise TypeError (about_type (txt "positions") (txt "ndarray") p)) /\
  (forall a, numeric p a -> not_numeric d -> (forall s, d = VStr s -> bf s = None) ->
     displace_positions_v nb bf p d = Raise TypeError (about_type (txt "displacement") (txt "ndarray") d)) /\
  (forall a b, numeric p a -> numeric d b -> narr_wf a -> narr_wf b ->
     ((exists out, broadcasts (na_shape a) (na_shape b) out) ->
        exists w c, displace_positions_v nb bf p d = Done w /\ numeric w c /\ combined displaced_to a b c) /\
     ((~ exists out, broadcasts (na_shape a) (na_shape b) out) ->
        displace_positions_v nb bf p d = Raise ValueError (nb (na_shape a) (na_shape b)))).
Proof.
  intros nb bf p d. split; [|split].
  - intros H. unfold displace_positions_v. rewrite (pbc_bad p H). reflexivity.
  - intros a H K B. unfold displace_positions_v. destruct (pbc_num p a H) as (w & -> & _). cbn [obind].
    rewrite (pbcd_bad bf d K B). reflexivity.
  - intros a b H K Wa Wb. unfold displace_positions_v. destruct (pbc_num p a H) as (w & -> & N). cbn [obind].
    rewrite (pbcd_num bf d b K). cbn [obind]. unfold arithmetic.
    rewrite (numeric_operand _ _ N), (numeric_operand _ _ (numeric_of _)).
    destruct (f_C03_displace a b Wa Wb) as [G1 G2]. unfold displace_positions_array in G1, G2. unfold rbind in G1, G2.
    destruct (elementwise num_add (apply_pbc_array a) (apply_pbc_displacement_array b)) as [c|e] eqn:E; cbn [obind].
    + split.
      * intros X. destruct (G1 X) as (q & Q1 & Q2). injection Q1 as <-.
        destruct (pbc_num _ _ (numeric_of c)) as (w' & W1 & W2). exists w', (apply_pbc_array c). auto.
      * intros X. specialize (G2 X). discriminate.
    + split.
      * intros X. destruct (G1 X) as (q & Q1 & Q2). discriminate.
      * intros _. reflexivity.
Qed.
Lemma f_C98_measure : forall nb bf p q,
  (not_numeric p -> calc_displacement_v nb bf p q = Raise TypeError (about_type (txt "positions") (txt "ndarray") p)) /\
  (forall a, numeric p a -> not_numeric q ->
     calc_displacement_v nb bf p q = Raise TypeError (about_type (txt "positions") (txt "ndarray") q)) /\
  (forall a b, numeric p a -> numeric q b -> narr_wf a -> narr_wf b ->
     ((exists out, broadcasts (na_shape a) (na_shape b) out) ->
        exists w c, calc_displacement_v nb bf p q = Done w /\ numeric w c /\ combined measured_to a b c) /\
     ((~ exists out, broadcasts (na_shape a) (na_shape b) out) ->
        calc_displacement_v nb bf p q = Raise ValueError (nb (na_shape b) (na_shape a)))).
Proof.
  intros nb bf p q. split; [|split].
  - intros H. unfold calc_displacement_v. rewrite (pbc_bad p H). reflexivity.
  - intros a H K. unfold calc_displacement_v. destruct (pbc_num p a H) as (w & -> & _). cbn [obind].
    rewrite (pbc_bad q K). reflexivity.
  - intros a b H K Wa Wb. unfold calc_displacement_v. destruct (pbc_num p a H) as (w & -> & N). cbn [obind].
    destruct (pbc_num q b K) as (w' & -> & N'). cbn [obind]. unfold arithmetic.
    rewrite (numeric_operand _ _ N), (numeric_operand _ _ N').
    destruct (f_C03_measure a b Wa Wb) as [G1 G2]. unfold calc_displacement_array in G1, G2. unfold rbind in G1, G2.
    destruct (elementwise num_sub (apply_pbc_array b) (apply_pbc_array a)) as [c|e] eqn:E; cbn [obind].
    + split.
      * intros X. destruct (G1 X) as (d & Q1 & Q2). injection Q1 as <-.
        rewrite (pbcd_num bf _ _ (numeric_of c)). exists (of_narr (apply_pbc_displacement_array c)), (apply_pbc_displacement_array c).
        split; [reflexivity|]. split; [apply numeric_of|exact Q2].
      * intros X. specialize (G2 X). discriminate.
    + split.
      * intros X. destruct (G1 X) as (d & Q1 & Q2). discriminate.
      * intros _. reflexivity.
Qed.

(** A list in place of an array: the two arguments of calc_displacement cannot be told apart *)
Lemma list_bad : forall l, not_numeric (VList l).
Proof. intros l. split; [intros a [H|(t & x & H & _)]; discriminate|discriminate]. Qed.
Lemma f_C98_measure_untold : forall nb bf a, exists p q q' m, not_numeric p /\ not_numeric q' /\ numeric q a /\ 
  calc_displacement_v nb bf p q = Raise TypeError m /\ calc_displacement_v nb bf q q' = Raise TypeError m.
Proof.
  intros nb bf a. exists (VList []), (of_narr a), (VList []), (about_type (txt "positions") (txt "ndarray") (VList [])).
  split; [apply list_bad|]. split; [apply list_bad|]. split; [apply numeric_of|]. split.
  - apply (f_C98_measure nb bf (VList []) (of_narr a)). apply list_bad.
  - apply (proj1 (proj2 (f_C98_measure nb bf (of_narr a) (VList [])))) with a; [apply numeric_of|apply list_bad].
Qed.

(** ** transform_positions *)
Lemma leaves_within : forall a, within_cell a -> leaves_cell (of_narr a) = false.
Proof.
  intros a W. unfold leaves_cell, of_narr. apply not_true_is_false. intros X. apply existsb_exists in X as (x & I & X).
  unfold within_cell in W. rewrite Forall_forall in W. specialize (W x I). destruct x as [r|b|]; cbn in X; [|exact W|discriminate].
  apply orb_true_iff in X as [X|X]; apply Rltb_true in X; lra.
Qed.
Lemma verify_accepts : forall mt a n, na_shape a = [n; 3] -> within_cell a -> verify_positions_v mt (txt "positions") (of_narr a) = Done tt.
Proof.
  intros mt a n E W. unfold verify_positions_v. unfold of_narr. rewrite E. cbn [verify_shape shape_of].
  assert (L := leaves_within a W). unfold of_narr in L. rewrite E in L. rewrite L. reflexivity.
Qed.
Lemma leaves_beyond : forall v, leaves_cell v = true -> Exists beyond (entries v).
Proof.
  assert (G : forall d, existsb (fun x => num_lt x 0 || num_gt x 1) d = true -> Exists beyond d).
  { intros d X. apply existsb_exists in X as (x & I & X). apply Exists_exists. exists x. split; [exact I|].
    destruct x as [r|b|]; cbn in X |- *; [|exact Logic.I|discriminate].
    apply orb_true_iff in X as [X|X]; apply Rltb_true in X; lra. }
  intros [t x|s|l|s d|s d|t] H; cbn in H; try discriminate; apply G; exact H.
Qed.

Section Transform.
Variables (mt : text) (nb : list nat -> list nat -> text) (bf : text -> option text) (np : pyval -> res narr) (ns : pyval -> text).
Notation transform := (transform_positions_v mt nb bf np ns).

Lemma f_C98_transform_positions_arg : forall p r t,
  (~ meets p (HasShape [SAny; SDim 3]) -> exists e m, complaint mt (Arg (txt "positions") p (HasShape [SAny; SDim 3])) e m /\ transform p r t = Raise e m) /\
  (meets p (HasShape [SAny; SDim 3]) -> Exists beyond (entries p) ->
     transform p r t = Raise ValueError (txt "positions has coordinates that are not between 0 and 1")).
Proof.
  intros p r t. unfold transform_positions_v, verify_positions_v.
  destruct (verify_shape_cases mt (txt "positions") p [SAny; SDim 3]) as [[M E]|[M (e & m & C & E)]]; rewrite E; cbn [obind].
  - split; [contradiction|]. intros _ B. replace (leaves_cell p) with true; [reflexivity|]. symmetry.
    assert (G : forall d, Exists beyond d -> existsb (fun x => num_lt x 0 || num_gt x 1) d = true).
    { intros d X. apply Exists_exists in X as (x & I & X). apply existsb_exists. exists x. split; [exact I|].
      destruct x as [q|b|]; cbn in X |- *; [|destruct b; reflexivity|contradiction].
      apply orb_true_iff. destruct X as [X|X]; [left|right]; apply Rltb_true; exact X. }
    destruct p; cbn in B |- *; try (inversion B; fail); apply G; exact B.
  - split; [|contradiction]. intros _. exists e, m. auto.
Qed.

Lemma transform_unfold : forall p n r t, na_shape p = [n; 3] -> within_cell p ->
  transform (of_narr p) r t =
  obind (match product_v np (apply_pbc_array p) r with
    | Ok r => Done (of_narr r)
    | Err TypeError => raise (type_error (txt "rotation") r (txt "ndarray"))
    | Err _ => match shape_of r with
               | Some dims => raise (shape_error mt (txt "rotation") dims (txt "(3,3)"))
               | None => Raise AttributeError (ns r)
               end
    end) (fun rotated => obind (apply_pbc_v rotated) (fun rotated => displace_positions_v nb bf rotated t)).
Proof.
  intros p n r t E W. unfold transform_positions_v. rewrite (verify_accepts mt p n E W). cbn [obind].
  unfold of_narr at 1. cbn [apply_pbc_v]. rewrite narr_eta. cbn [obind operand of_narr]. rewrite narr_eta. reflexivity.
Qed.

Lemma f_C98_rotation : forall p n r t, na_shape p = [n; 3] -> within_cell p ->
  (forall dims data, r = VArray dims data -> (~ exists s, product_shape n dims s) ->
     transform (of_narr p) r t = Raise ValueError (about_shape mt (txt "rotation") dims [SDim 3; SDim 3])) /\
  (forall s, r = VStr s -> transform (of_narr p) r t = Raise TypeError (about_type (txt "rotation") (txt "ndarray") r)) /\
  (forall ty x, r = VNumber ty x -> transform (of_narr p) r t = Raise AttributeError (ns r)).
Proof.
  intros p n r t E W. rewrite (transform_unfold p n r t E W). split; [|split].
  - intros dims data -> H. cbn [product_v]. rewrite (matmul_rejects (apply_pbc_array p) (mkNarr dims data) n); [|exact E|exact H].
    cbn [shape_of obind raise shape_error fst snd]. unfold about_shape. rewrite shape_text. reflexivity.
  - intros s ->. reflexivity.
  - intros ty x ->. reflexivity.
Qed.

Lemma f_C98_translation : forall p n dims data s t, na_shape p = [n; 3] -> within_cell p -> product_shape n dims s ->
  not_numeric t -> (forall w, t = VStr w -> bf w = None) ->
  transform (of_narr p) (VArray dims data) t = Raise TypeError (about_type (txt "displacement") (txt "ndarray") t).
Proof.
  intros p n dims data s t E W P N B. rewrite (transform_unfold p n _ t E W). cbn [product_v].
  destruct (matmul_accepts (apply_pbc_array p) (mkNarr dims data) n E s P) as (c & -> & _ & _). cbn [obind].
  destruct (pbc_num _ _ (numeric_of c)) as (w & -> & Nw). cbn [obind].
  apply (proj1 (proj2 (f_C98_displace nb bf w t))) with (apply_pbc_array c); assumption.
Qed.

Lemma f_C98_transform_arrays : forall p r t, narr_wf p -> narr_wf r -> narr_wf t ->
  (accepted p r t -> exists w q, transform (of_narr p) (of_narr r) (of_narr t) = Done w /\ numeric w q /\ transform_positions_array p r t = Ok q) /\
  (~ accepted p r t -> exists m, transform (of_narr p) (of_narr r) (of_narr t) = Raise ValueError m).
Proof.
  intros p r t Wp Wr Wt. destruct (f_C06_accepts p r t Wp Wr Wt) as [A R].
  destruct (verify_positions_array p) as [[]|e] eqn:V.
  - apply verify_positions_array_ok in V as [[n E] W]. rewrite (transform_unfold p n _ _ E W). cbn [product_v of_narr]. rewrite narr_eta.
    assert (V : verify_positions_array p = Ok tt) by (apply verify_positions_array_ok; eauto).
    unfold transform_positions_array in *. rewrite V in *. cbn [rbind] in *.
    destruct (product_dec n (na_shape r)) as [(s & P)|P].
    + destruct (matmul_accepts (apply_pbc_array p) r n E s P) as (c & M & Sc & Wc). rewrite M in *. cbn [rbind obind] in *.
      destruct (pbc_num _ _ (numeric_of c)) as (w & Ew & Nw). rewrite Ew. cbn [obind].
      assert (Wc' : narr_wf (apply_pbc_array c)) by (unfold narr_wf in *; cbn; rewrite map_length; exact Wc).
      destruct (f_C98_displace nb bf w (of_narr t)) as (_ & _ & G). specialize (G _ _ Nw (numeric_of t) Wc' Wt).
      destruct (f_C03_displace (apply_pbc_array c) t Wc' Wt) as [D1 D2].
      destruct G as [G1 G2]. split.
      * intros H. destruct (A H) as (q & Q).
        destruct (broadcasts_dec (na_shape (apply_pbc_array c)) (na_shape t)) as [B|B].
        -- unfold displace_positions_v. destruct (pbc_num w _ Nw) as (w2 & Ew2 & Nw2). rewrite Ew2. cbn [obind].
           rewrite (pbcd_num bf _ _ (numeric_of t)). cbn [obind]. unfold arithmetic.
           rewrite (numeric_operand _ _ Nw2), (numeric_operand _ _ (numeric_of _)).
           unfold displace_positions_array in Q.
           destruct (elementwise num_add (apply_pbc_array (apply_pbc_array c)) (apply_pbc_displacement_array t)) as [c2|e2] eqn:E2; cbn [rbind] in Q; [|discriminate].
           injection Q as Q. cbn [obind]. destruct (pbc_num _ _ (numeric_of c2)) as (w3 & E3 & N3).
           exists w3, q. rewrite E3. split; [reflexivity|]. rewrite <- Q. split; [exact N3|].
           unfold displace_positions_array. rewrite E2. reflexivity.
        -- rewrite (D2 B) in Q. discriminate.
      * intros H. specialize (R H).
        destruct (broadcasts_dec (na_shape (apply_pbc_array c)) (na_shape t)) as [B|B].
        -- destruct (D1 B) as (q & Q & _). congruence.
        -- eexists. apply G2. exact B.
    + split.
      * intros (n' & s & out & E' & _ & P' & _). rewrite E in E'. injection E' as <-. exfalso. apply P. eauto.
      * intros _. rewrite (matmul_rejects (apply_pbc_array p) r n E P). cbn [shape_of obind raise shape_error fst snd]. eexists. reflexivity.
  - split.
    + intros H. destruct (A H) as (q & Q). unfold transform_positions_array in Q. rewrite V in Q. discriminate.
    + intros _. unfold transform_positions_v.
      assert (K : exists m, verify_positions_v mt (txt "positions") (of_narr p) = Raise ValueError m).
      { unfold verify_positions_v, verify_shape. cbn [of_narr shape_of].
        destruct (negb _) eqn:L; [eexists; reflexivity|]. destruct (existsb _ (combine _ _)) eqn:X; [eexists; reflexivity|]. cbn [obind].
        destruct (leaves_cell _) eqn:Lv; [eexists; reflexivity|]. exfalso.
        apply negb_false_iff, Nat.eqb_eq in L. destruct (na_shape p) as [|n [|k [|? ?]]] eqn:Sp; try discriminate.
        cbn in X. destruct k as [|[|[|[|k]]]]; cbn in X; try discriminate.
        assert (verify_positions_array p = Ok tt); [|congruence].
        unfold verify_positions_array. rewrite Sp. cbn. cbn in Lv. rewrite Lv. reflexivity. }
      destruct K as (m & ->). exists m. reflexivity.
Qed.
End Transform.

(** ** Paths *)
Lemma f_C98_path : forall show p,
  (forall s, names_path p s -> pathify show p = Done s) /\
  (forall v, p = PNot v -> pathify show p = Raise TypeError (show v ++ txt " cannot be resolved as a filepath")).
Proof. intros show p. split; [intros s [->| ->]; reflexivity|intros v ->; reflexivity]. Qed.
Lemma items_ok : forall show l ps, Forall2 names_path l ps -> pathify_items show l = Done ps.
Proof.
  induction 1 as [|p s l ps H _ IH]; [reflexivity|]. cbn [pathify_items].
  rewrite (proj1 (f_C98_path show p) s H). cbn [obind]. rewrite IH. reflexivity.
Qed.
Lemma items_bad : forall show l ps v rest, Forall2 names_path l ps ->
  pathify_items show (l ++ PNot v :: rest) = Raise TypeError (show v ++ txt " cannot be resolved as a filepath").
Proof.
  induction 1 as [|p s l ps H _ IH]; [reflexivity|]. cbn [app pathify_items].
  rewrite (proj1 (f_C98_path show p) s H). cbn [obind]. rewrite IH. reflexivity.
Qed.
Lemma f_C98_paths : forall show,
  (forall p s, names_path p s -> pathify_as_list show (POne p) = Done [s]) /\
  (forall v, pathify_as_list show (POne (PNot v)) = Raise TypeError (show v ++ txt " cannot be resolved as a filepath")) /\
  pathify_as_list show (PList []) = Raise ValueError (txt "filepaths is empty") /\
  (forall l ps, l <> [] -> Forall2 names_path l ps -> pathify_as_list show (PList l) = Done ps) /\
  (forall l ps v rest, Forall2 names_path l ps ->
     pathify_as_list show (PList (l ++ PNot v :: rest)) = Raise TypeError (show v ++ txt " cannot be resolved as a filepath")).
Proof.
  intros show. split; [|split; [|split; [|split]]].
  - intros p s H. cbn. rewrite (proj1 (f_C98_path show p) s H). reflexivity.
  - intros v. reflexivity.
  - reflexivity.
  - intros l ps N F. unfold pathify_as_list. destruct l; [congruence|]. cbn [length Nat.eqb]. apply items_ok. exact F.
  - intros l ps v rest F. unfold pathify_as_list. rewrite app_length. cbn [length]. rewrite Nat.add_succ_r. cbn [Nat.eqb].
    eapply items_bad. exact F.
Qed.

(** ** Examples *)
Lemma ex_values : numeric (VNumber (txt "float") (Fin 3)) (mkNarr [] [Fin 3]) /\ numeric (of_narr ex_row) ex_row /\
  not_numeric (VList [VNumber (txt "int") (Fin 1)]) /\ not_numeric (VOther (txt "NoneType")) /\ not_numeric (VStr (txt "0.5")) /\
  (exists n, na_shape ex_row = [n; 3] /\ within_cell ex_row /\ (exists s, product_shape n [3; 3] s) /\ ~ exists s, product_shape n [2; 3] s) /\
  names_path (PStr (txt "OUTCAR")) (txt "OUTCAR").
Proof.
  split; [right; eauto|]. split; [apply numeric_of|]. split; [apply list_bad|].
  split; [split; [intros a [H|(t & x & H & _)]; discriminate|discriminate]|].
  split; [split; [intros a [H|(t & x & H & _)]; discriminate|discriminate]|].
  split; [|left; reflexivity].
  destruct ex_accepted as (n & s & out & E & W & _ & _). exists n. split; [exact E|]. split; [exact W|]. split.
  - exists ([] ++ [n; 3]). apply (product_matrices n [] 3).
  - intros (q & P). inversion P as [H1|b m H1]. destruct b as [|b0 [|b1 b]]; cbn in H1; [congruence|congruence|destruct b; cbn in H1; congruence].
Qed.
