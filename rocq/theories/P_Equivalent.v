From Coq Require Import String ZArith Reals Lra Lia Psatz Bool List.
From Verif Require Import Base LinAlg Constants M_Validate M_StructUtils M_Symmetry M_Reference
  S_Lattice S_Vec S_Symmetry S_Equivalent P_StructUtils P_Minimal P_Reference P_Symmetry.
Import ListNotations.
Local Open Scope R_scope.

(** ** Permutation matrices *)
Lemma close_pts_congr a b a' b' : vcongr a a' -> vcongr b b' -> close_pts a b = close_pts a' b'.
Proof.
  intros H G. unfold close_pts. f_equal. f_equal. f_equal.
  apply vmap_wrapd_proper, vcongr_vsub; auto.
Qed.

Lemma close_pts_refl a b : vcongr a b -> close_pts a b = true.
Proof.
  intros H. rewrite (close_pts_congr a b b b); auto using vcongr_refl.
  unfold close_pts. rewrite vsub_diag. apply Rltb_true.
  replace (vmap wrapd v0) with v0 by (apply V3_eq; simpl; symmetry; apply wrapd_0).
  replace (vnorm2 v0) with 0 by vring. rewrite sqrt_0. unfold ptol. lra.
Qed.

Lemma close_pts_far a b :
  (forall n, integer_vector n -> ptol <= sqrt (vnorm2 (vsub (vsub a b) n))) -> close_pts a b = false.
Proof.
  intros H. unfold close_pts. apply Rltb_false.
  set (u := vsub a b).
  replace (vmap wrapd u) with (vsub u (vsub u (vmap wrapd u))) by vring.
  apply H. apply vcongr_int, vcongr_wrapd.
Qed.

Lemma nth_map_lt {A B} (f : A -> B) l i d d' : (i < List.length l)%nat -> nth i (map f l) d' = f (nth i l d).
Proof. intros H. rewrite (nth_indep _ d' (f d)) by (rewrite map_length; auto). apply map_nth. Qed.

Lemma nth_error_nth_lt {A} (l : list A) i d : (i < List.length l)%nat -> nth_error l i = Some (nth i l d).
Proof. apply nth_error_nth'. Qed.

(** The matrix of a permutation: row [b] has its only [true] in column [pi b]. *)
Definition perm_matrix (n : nat) (pi : nat -> nat) : bmat :=
  map (fun b => map (fun a => Nat.eqb a (pi b)) (seq 0 n)) (seq 0 n).

Lemma list_eq_nth {A} (l m : list A) d :
  List.length l = List.length m -> (forall i, (i < List.length l)%nat -> nth i l d = nth i m d) -> l = m.
Proof. intros; apply (nth_ext l m d d); auto. Qed.

Lemma permutation_matrix_correct pos R t pi :
  positions_ok pos = true -> row_symmetry pos R t pi -> separated ptol pos ->
  permutation_matrix_of pos (R, t) = Ok (perm_matrix (List.length pos) pi).
Proof.
  intros Hok (HR & (Hp1 & Hp2 & Hp3) & Hs) Hsep.
  unfold permutation_matrix_of. rewrite displace_positions_one. simpl.
  rewrite transform_ok_eq by auto. simpl. f_equal.
  unfold get_positions_permutation_matrix, perm_matrix.
  set (n := List.length pos) in *.
  apply (list_eq_nth _ _ []).
  { unfold apply_pbc; rewrite !map_length, seq_length. reflexivity. }
  rewrite map_length, apply_pbc_length, map_length. fold n. intros b Hb.
  rewrite (nth_map_lt _ _ b v0) by (unfold apply_pbc; rewrite !map_length; auto).
  rewrite (nth_map_lt _ (seq 0 n) b 0%nat) by (rewrite seq_length; auto).
  apply (list_eq_nth _ _ false).
  { unfold apply_pbc; rewrite !map_length, seq_length. reflexivity. }
  rewrite map_length, apply_pbc_length, map_length. fold n. intros a Ha.
  rewrite (nth_map_lt _ _ a v0) by (unfold apply_pbc; rewrite !map_length; auto).
  rewrite (nth_map_lt _ (seq 0 n) a 0%nat) by (rewrite seq_length; auto).
  rewrite !seq_nth by auto. simpl.
  unfold apply_pbc. rewrite !(nth_map_lt _ _ _ v0 v0) by (rewrite ?map_length; auto).
  rewrite (close_pts_congr _ _ (vadd (nth b pos v0) (com_shift pos))
            (vadd (vadd (vmul (nth a pos v0) R) t) (com_shift pos))).
  2: apply vcongr_sym, vcongr_wrap.
  2: { eapply vcongr_trans; [apply vcongr_sym, vcongr_wrap|].
       rewrite vadd_assoc. apply vcongr_refl. }
  destruct (Hp3 a Ha) as (c & Hc & <-).
  assert (Hcc := Hs c Hc).
  rewrite (close_pts_congr _ _ (vadd (nth b pos v0) (com_shift pos)) (vadd (nth c pos v0) (com_shift pos)));
    [|apply vcongr_refl|apply vcongr_vadd; [auto|apply vcongr_refl]].
  destruct (Nat.eqb_spec (pi c) (pi b)) as [E|E].
  - apply Hp2 in E; auto. subst c. apply close_pts_refl, vcongr_refl.
  - apply close_pts_far. intros m Hm.
    replace (vsub (vsub (vadd (nth b pos v0) (com_shift pos)) (vadd (nth c pos v0) (com_shift pos))) m)
      with (vsub (vsub (nth b pos v0) (nth c pos v0)) m) by vring.
    apply Hsep; auto.
Qed.

(** ** Applying a permutation matrix *)
Lemma vsum_select (c : list V3) k i s :
  (s <= i < s + k)%nat -> List.length c = k ->
  vsum (map2 (fun (b : bool) v => if b then v else v0) (map (fun a => Nat.eqb a i) (seq s k)) c)
  = nth (i - s) c v0.
Proof.
  revert s c. induction k; intros s c H Hl; [lia|].
  destruct c as [|v c]; [discriminate|]. simpl.
  assert (Z: forall m s' c', (i < s')%nat ->
     vsum (map2 (fun (b : bool) v => if b then v else v0) (map (fun a => Nat.eqb a i) (seq s' m)) c') = v0).
  { clear. induction m; intros s' c' Hs; simpl; auto. destruct c'; simpl; auto.
    destruct (Nat.eqb_spec s' i); [lia|]. rewrite IHm by lia. apply vadd_0_l. }
  destruct (Nat.eqb_spec s i) as [->|N].
  - rewrite Z by lia. rewrite Nat.sub_diag. simpl. apply vadd_0_r.
  - rewrite IHk; [|lia|simpl in Hl; lia]. rewrite vadd_0_l.
    replace (i - s)%nat with (S (i - S s)) by lia. auto.
Qed.

Lemma perm_matrix_mul n pi c : List.length c = n -> permutes n pi ->
  bmat_mul (perm_matrix n pi) c = Ok (map (fun b => nth (pi b) c v0) (seq 0 n)).
Proof.
  intros Hl (Hp & _). unfold bmat_mul, perm_matrix.
  rewrite (proj2 (forallb_forall _ _)).
  - f_equal. rewrite map_map. apply map_ext_in. intros b Hb. apply in_seq in Hb.
    unfold brow_mul. rewrite vsum_select; [f_equal; lia| |auto].
    split; [lia|]. simpl. apply Hp; lia.
  - intros row Hrow. apply in_map_iff in Hrow as (b & <- & _).
    rewrite map_length, seq_length. apply Nat.eqb_eq; auto.
Qed.

(** ** Exact image of a displacement under a symmetry *)
Lemma candidate_exact r R t pi d :
  row_symmetry (rs_positions r) R t pi ->
  List.length d = List.length (rs_positions r) ->
  Forall (fun v => vall (fun x => - / 2 < x <= / 2) (vmul v R)) d ->
  candidate r (Fin d) (R, t) (perm_matrix (List.length (rs_positions r)) pi)
  = Ok (Fin (map (fun b => vmul (nth (pi b) d v0) R) (seq 0 (List.length (rs_positions r))))).
Proof.
  intros (HR & Hp & Hs) Hl Hd. set (pos := rs_positions r) in *. set (n := List.length pos) in *.
  unfold candidate. fold pos. simpl fst; simpl snd.
  rewrite displace_positions_eq by auto. simpl.
  rewrite transform_ok_eq by auto using apply_pbc_positions_ok. simpl.
  assert (Hlen: List.length (rows_add pos d) = n) by (apply rows_add_length; auto).
  rewrite perm_matrix_mul; auto.
  2: { unfold apply_pbc; rewrite !map_length; auto. }
  simpl. rewrite calc_displacement_eq by (rewrite map_length, seq_length; auto).
  simpl. f_equal. f_equal.
  apply (list_eq_nth _ _ v0).
  { rewrite apply_pbc_displacement_length. unfold rows_sub. rewrite map2_length, !map_length, seq_length. fold n. lia. }
  rewrite apply_pbc_displacement_length. unfold rows_sub at 1.
  rewrite map2_length, map_length, seq_length. fold n. rewrite Nat.min_id. intros b Hb.
  unfold apply_pbc_displacement.
  rewrite (nth_map_lt _ _ b v0) by (unfold rows_sub; rewrite map2_length, map_length, seq_length; fold n; lia).
  rewrite (nth_map_lt _ (seq 0 n) b 0%nat) by (rewrite seq_length; auto).
  unfold rows_sub. rewrite (map2_nth _ _ _ b v0 v0) by (rewrite ?map_length, ?seq_length; auto).
  rewrite (nth_map_lt _ (seq 0 n) b 0%nat) by (rewrite seq_length; auto).
  rewrite seq_nth by auto. simpl.
  assert (Hpb: (pi b < n)%nat) by (apply Hp; auto).
  unfold apply_pbc. rewrite !map_map.
  rewrite (nth_map_lt _ (rows_add pos d) (pi b) v0) by (rewrite Hlen; auto).
  unfold rows_add. rewrite (map2_nth _ _ _ (pi b) v0 v0) by (rewrite ?Hl; auto).
  set (pp := nth (pi b) pos v0). set (dd := nth (pi b) d v0).
  assert (Hdd: vall (fun x => - / 2 < x <= / 2) (vmul dd R)).
  { rewrite Forall_forall in Hd. apply Hd. apply nth_In. rewrite Hl; auto. }
  transitivity (vmap wrapd (vmul dd R)); [|apply vmap_wrapd_id; auto]. apply vmap_wrapd_proper.
  eapply vcongr_trans.
  { apply vcongr_vsub; [apply vcongr_sym, vcongr_wrap|apply vcongr_refl]. }
  replace (vmul dd R) with (vsub (vadd (vmul (vadd pp dd) R) t) (vadd (vmul pp R) t)) by vring.
  apply vcongr_vsub.
  - apply vcongr_vadd; [|apply vcongr_refl]. apply vcongr_vmul; auto. apply vcongr_sym, vcongr_wrap.
  - apply vcongr_sym. apply Hs; auto.
Qed.

(** ** The classification loop *)
Definition members_ok (r : refstruct) (d : arr V3) (ops : list ((M3 * V3) * bmat)) (g : group) (o : arr V3) : Prop :=
  (exists rest, g_disp g = o :: rest /\
     Forall (fun m => are_collinear (flatten m) (flatten o) = Ok true) rest) /\
  List.length (g_disp g) = List.length (g_trans g) /\
  ForallOrdPairs (fun a b => arr_close b a = false) (g_disp g) /\
  Forall (fun de => exists P, In (snd de, P) ops /\ candidate r d (snd de) P = Ok (fst de))
         (combine (g_disp g) (g_trans g)).

Definition loop_inv r d ops (st : list group * list (arr V3)) : Prop :=
  Forall2 (members_ok r d ops) (fst st) (snd st) /\
  ForallOrdPairs (fun a b => non_orthogonal (normalise (flatten b)) (flatten a) = Ok false) (snd st).

Lemma FOP_app {A} (R : A -> A -> Prop) l x :
  ForallOrdPairs R l -> (forall a, In a l -> R a x) -> ForallOrdPairs R (l ++ [x]).
Proof.
  intros H; induction H; simpl; intros G.
  - constructor; constructor.
  - constructor; [|apply IHForallOrdPairs; auto].
    apply Forall_app. split; auto.
Qed.

Lemma Forall2_app_one {A B} (P : A -> B -> Prop) l m a b :
  Forall2 P l m -> P a b -> Forall2 P (l ++ [a]) (m ++ [b]).
Proof. intros H G; apply Forall2_app; auto. Qed.

Lemma combine_app_one {A B} (l : list A) (m : list B) a b :
  List.length l = List.length m -> combine (l ++ [a]) (m ++ [b]) = combine l m ++ [(a, b)].
Proof. revert m; induction l; intros [|y m] H; try discriminate; simpl; auto. f_equal. auto. Qed.

Lemma add_to_group_Forall2 {B} (P : group -> B -> Prop) k cd op gs os g :
  Forall2 P gs os -> nth_error gs k = Some g ->
  (forall o, nth_error os k = Some o -> P g o -> P (mkGroup (g_disp g ++ [cd]) (g_trans g ++ [op])) o) ->
  Forall2 P (add_to_group k cd op gs) os.
Proof.
  intros H; revert k; induction H; intros k Hk G; [destruct k; discriminate|].
  destruct k; simpl in *.
  - injection Hk as ->. constructor; auto.
  - constructor; auto.
Qed.

Lemma classify_inv r d ops st cd op P st' :
  loop_inv r d ops st -> In (op, P) ops -> candidate r d op P = Ok cd ->
  classify st cd op = Ok st' -> loop_inv r d ops st'.
Proof.
  destruct st as [gs orth]. intros [I1 I2] Hin Hc. simpl in I1, I2. unfold classify.
  destruct (is_orthogonal_to_all (flatten cd) (map flatten orth)) as [o|] eqn:Ho; simpl; [|discriminate].
  destruct (Z.eqb_spec o (-1)) as [->|No].
  - intros [= <-]. split; simpl.
    + apply Forall2_app_one; auto. split; [exists []; auto|]. simpl.
      split; auto. split; [constructor; constructor|]. constructor; [exists P; auto|constructor].
    + apply FOP_app; auto. intros a Ha. unfold is_orthogonal_to_all in Ho.
      apply (scan_none _ _ _ Ho). apply in_map; auto.
  - destruct (is_non_collinear_with_all (flatten cd) (map flatten orth)) as [c|] eqn:Hcl; simpl; [|discriminate].
    destruct (Z.eqb_spec c (-1)) as [->|Nc]; simpl.
    + intros [= <-]. split; auto.
    + destruct (nth_error gs (Z.to_nat c)) as [g|] eqn:Hg; [|discriminate].
      destruct (existsb (fun e => arr_close cd e) (g_disp g)) eqn:Hd; [intros [= <-]; split; auto|].
      intros [= <-]. split; simpl; auto.
      eapply add_to_group_Forall2; eauto. intros o' Ho' ((rest & E & Hr) & Hl & Hdup & Him).
      unfold is_non_collinear_with_all in Hcl. apply scan_range in Hcl as [|(n & a & Ec & Hn & Ha & _)]; [lia|].
      simpl in Ec. subst c. rewrite Nat2Z.id in *.
      rewrite nth_error_map, Ho' in Hn. simpl in Hn. injection Hn as <-.
      split; [|split; [|split]]; simpl.
      * exists (rest ++ [cd]). rewrite E. split; auto. apply Forall_app; auto.
      * rewrite !app_length, Hl; auto.
      * apply FOP_app; auto. intros x Hx.
        destruct (arr_close cd x) eqn:X; auto.
        assert (existsb (fun e => arr_close cd e) (g_disp g) = true) by (apply existsb_exists; eauto). congruence.
      * rewrite combine_app_one by auto. apply Forall_app; split; auto. constructor; [|constructor].
        exists P; auto.
Qed.

Lemma equivalent_loop_inv r d ops todo st st' :
  (forall x, In x todo -> In x ops) ->
  loop_inv r d ops st -> equivalent_loop r d todo st = Ok st' -> loop_inv r d ops st'.
Proof.
  revert st. induction todo as [|[op P] todo IH]; intros st Hin Hinv; simpl.
  - intros [= <-]; auto.
  - destruct (candidate r d op P) as [cd|] eqn:Hc; simpl; [|discriminate].
    destruct (classify st cd op) as [st1|] eqn:Hk; simpl; [|discriminate].
    intros H. eapply IH; [| |exact H].
    + intros; apply Hin; simpl; auto.
    + eapply classify_inv; eauto. apply Hin; simpl; auto.
Qed.

Lemma equivalent_displacements_inv r d gs :
  get_equivalent_displacements r d = Ok gs ->
  exists orth, loop_inv r (scale_displacement d) (combine (rs_ops r) (rs_perms r)) (gs, orth).
Proof.
  unfold get_equivalent_displacements. destruct (displace_positions _ _); simpl; [|discriminate].
  destruct (equivalent_loop r _ _ _) as [[gs' orth]|] eqn:E; simpl; [|discriminate].
  intros [= <-]. exists orth. eapply equivalent_loop_inv; [|  |exact E]; auto.
  split; constructor.
Qed.

(** ** Shapes *)
(** A well-formed reference structure: what the constructor produces. *)
Definition wf_ref (r : refstruct) : Prop :=
  List.length (rs_numbers r) = List.length (rs_positions r) /\
  (0 < List.length (rs_positions r))%nat /\
  List.length (rs_perms r) = List.length (rs_ops r) /\
  Forall (fun P => List.length P = List.length (rs_positions r) /\
                   Forall (fun row => List.length row = List.length (rs_positions r)) P) (rs_perms r) /\
  positions_ok (rs_positions r) = true.

Lemma make_reference_wf numbers L pos ops equiv r :
  (0 < List.length pos)%nat -> ops <> [] ->
  make_reference numbers L pos (Some (ops, equiv)) = Ok r -> wf_ref r.
Proof.
  intros H Hops. destruct (positions_ok pos) eqn:Hok.
  2: { destruct ops as [|op ops]; [tauto|]. rewrite make_reference_bad_positions; auto. discriminate. }
  unfold make_reference. simpl.
  destruct (verify_ndarray_shape_spec [List.length pos; 3%nat] [Some (List.length numbers); Some 3%nat]) as [H1 _].
  destruct (verify_ndarray_shape _ _) as [[]|]; simpl; [|discriminate].
  destruct H1 as [H1 _]. specialize (H1 eq_refl). inversion H1; subst.
  destruct (compute_permutation_matrices ops pos) as [perms|] eqn:E; simpl; [|discriminate].
  intros [= <-]. unfold wf_ref; simpl. split; [auto|split; [auto|split; [|split; [|auto]]]].
  - apply mapM_length in E; auto.
  - apply mapM_Ok in E. clear - E Hok.
    induction E as [|op P ops perms HP E IH]; constructor; auto.
    unfold permutation_matrix_of in HP. rewrite displace_positions_one in HP. simpl in HP.
    unfold transform_positions in HP. rewrite Hok, displace_positions_one in HP. simpl in HP.
    injection HP as <-. unfold get_positions_permutation_matrix.
    split; [rewrite map_length, apply_pbc_length, map_length; auto|].
    apply Forall_forall. intros row Hrow. apply in_map_iff in Hrow as (v & <- & _).
    unfold apply_pbc, rows_mul. rewrite !map_length; auto.
Qed.

Lemma scale_displacement_fin l : rows_norm (apply_pbc_displacement l) <> 0 ->
  scale_displacement (Fin l) = Fin (rows_scale (/ (rows_norm (apply_pbc_displacement l) * 10)) (apply_pbc_displacement l)).
Proof.
  intros H. unfold scale_displacement.
  destruct (Reqb (rows_norm (apply_pbc_displacement l)) 0) eqn:E; auto. apply Reqb_true in E. tauto.
Qed.

Lemma candidate_fin r d op P cd :
  wf_ref r -> In P (rs_perms r) -> candidate r (Fin d) op P = Ok cd ->
  exists l, cd = Fin l /\ List.length l = List.length (rs_positions r).
Proof.
  intros (_ & _ & _ & Hperm & _) HP. unfold candidate.
  destruct (displace_positions (rs_positions r) d) as [refp|]; simpl; [|discriminate].
  destruct (transform_positions refp (fst op) (snd op)) as [c|]; simpl; [|discriminate].
  unfold bmat_mul. destruct (forallb _ _); simpl; [|discriminate].
  rewrite Forall_forall in Hperm. destruct (Hperm P HP) as [HPl _].
  rewrite calc_displacement_eq by (rewrite map_length; auto). simpl.
  intros [= <-]. eexists; split; eauto.
  rewrite apply_pbc_displacement_length. unfold rows_sub. rewrite map2_length, map_length, HPl. lia.
Qed.

Lemma flatten_rows_length l : List.length (flatten_rows l) = (3 * List.length l)%nat.
Proof. induction l; simpl in *; lia. Qed.

Lemma equivalent_displacements_structure r l gs :
  wf_ref r -> rows_norm (apply_pbc_displacement l) <> 0 ->
  get_equivalent_displacements r (Fin l) = Ok gs ->
  exists leaders : list (list V3),
    Forall2 (fun g leader => exists rest : list (list V3),
        g_disp g = map Fin (leader :: rest) /\
        List.length (g_trans g) = S (List.length rest) /\
        Forall (fun m => collinear_spec (rowsR m) (rowsR leader)) rest) gs leaders /\
    ForallOrdPairs (fun a b => orthogonal_spec (rowsR b) (rowsR a)) leaders.
Proof.
  intros Hwf Hn Hg. apply equivalent_displacements_inv in Hg as [orth [I1 I2]]. cbn [fst snd] in I1, I2.
  rewrite scale_displacement_fin in I1 by auto.
  set (d := rows_scale _ _) in I1.
  set (n := List.length (rs_positions r)) in *.
  assert (Hn0: (0 < n)%nat) by apply Hwf.
  (* every displacement is finite of length n *)
  assert (Hfin: forall g o, members_ok r (Fin d) (combine (rs_ops r) (rs_perms r)) g o ->
            exists rows, g_disp g = map Fin rows /\ Forall (fun x => List.length x = n) rows).
  { intros g o (_ & Hl & _ & Him). revert Hl Him. generalize (g_trans g). generalize (g_disp g).
    induction l0 as [|x l0 IH]; intros [|t l1] Hl Him; try discriminate; simpl in *.
    - exists []; auto.
    - inversion Him as [|? ? (P & HP & Hc) Him']; subst. simpl in *.
      apply in_combine_r in HP. destruct (candidate_fin _ _ _ _ _ Hwf HP Hc) as (rows1 & -> & Hlen).
      destruct (IH l1) as (rows & -> & Hrows); auto. exists (rows1 :: rows). split; auto. }
  assert (Hlead: exists leaders, orth = map Fin leaders /\ Forall (fun x => List.length x = n) leaders).
  { clear I2. induction I1 as [|g o gs' orth' H I1 IH]; [exists []; auto|].
    destruct IH as (leaders & -> & Hl). destruct (Hfin _ _ H) as (rows & E & Hr).
    destruct H as ((rest & E' & _) & _). rewrite E in E'. destruct rows as [|x rows]; [discriminate|].
    injection E' as <- _. inversion Hr; subst. exists (x :: leaders). split; auto. }
  destruct Hlead as (leaders & -> & Hlen). exists leaders. split.
  - remember (map Fin leaders) as orth eqn:Eo. revert leaders Eo Hlen. clear I2.
    induction I1 as [|g o gs' orth' H I1 IH]; intros [|x leaders] Eo Hlen; try discriminate; constructor.
    + destruct (Hfin _ _ H) as (rows & E & Hr). destruct H as ((rest & E' & Hcol) & Hl & _).
      injection Eo as -> ->. rewrite E in E'. destruct rows as [|y rows]; [discriminate|].
      injection E' as -> <-. exists rows. inversion Hr as [|? ? Hx Hrs]; subst. split; [auto|split].
      * rewrite <- Hl, E, map_length. auto.
      * apply Forall_forall. intros m Hm. rewrite Forall_forall in Hcol.
        specialize (Hcol (Fin m) (in_map _ _ _ Hm)). simpl in Hcol.
        rewrite Forall_forall in Hrs. specialize (Hrs _ Hm). inversion Hlen as [|? ? Hx' _]; subst.
        destruct (are_collinear_spec (flatten_rows m) (flatten_rows x)) as (b & Hb & Hs).
        { rewrite !flatten_rows_length. lia. }
        { intros E0. apply (f_equal (@List.length R)) in E0. rewrite flatten_rows_length, Hrs in E0. simpl in E0. lia. }
        rewrite Hb in Hcol. injection Hcol as ->. apply Hs; auto.
    + injection Eo as -> ->. inversion Hlen; subst. apply IH; auto.
  - clear I1 Hfin. induction leaders as [|x leaders IH]; constructor.
    + inversion I2 as [|? ? H1 H2]; subst. inversion Hlen as [|? ? H3 H4]; subst. apply Forall_forall. intros y Hy.
      rewrite Forall_forall in H1. specialize (H1 (Fin y) (in_map _ _ _ Hy)). simpl in H1.
      rewrite Forall_forall in H4. specialize (H4 _ Hy).
      destruct (non_orthogonal_spec (flatten_rows y) (flatten_rows x)) as (b & Hb & Hs).
      { rewrite !flatten_rows_length. lia. }
      { intros E0. apply (f_equal (@List.length R)) in E0. rewrite flatten_rows_length, H4 in E0. simpl in E0. lia. }
      simpl in Hb, H1. rewrite Hb in H1. injection H1 as ->.
      destruct (orthogonal_spec_dec (flatten_rows y) (flatten_rows x)) as [|N]; auto.
      apply Hs in N. discriminate.
    + inversion I2; subst. inversion Hlen; subst. apply IH; auto.
Qed.
