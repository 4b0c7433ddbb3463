(** Proofs about the OUTCAR readers, part 3: errors, trajectories and phonons. *)
From Coq Require Import String Ascii ZArith NArith QArith Qreals Reals Bool Arith List Lia Lra Sorted.
From Verif Require Import Base LinAlg Constants M_Validate M_StructUtils M_Text M_Poscar M_Outcar S_Text S_Lattice S_Outcar
  P_StructUtils P_Text P_Poscar P_Poscar2 P_Poscar4 P_Outcar P_Outcar2.
Import ListNotations.
Local Open Scope nat_scope.

(** ** Errors *)
Lemma or_invalid_skip msg m f e : or_invalid msg (skip_until m f) = Err e <-> e = InvalidFileException msg /\ nowhere m f.
Proof.
  destruct (skip_until m f) as [[l r]|e'] eqn:Hs; cbn.
  - split; [discriminate|]. intros [_ H]. assert (H' : skip_until m f = Err NoMatchingLineFoundException) by (apply skip_until_err; auto). congruence.
  - apply skip_until_err in Hs. destruct Hs as [-> Hn]. split; [intros H; injection H as <-; auto|intros [-> _]; reflexivity].
Qed.
Lemma potcar_loop_err : forall f e, potcar_loop f = Err e -> exists m, e = InvalidFileException m.
Proof.
  induction f as [|l f IH]; intros e; cbn [potcar_loop]; [discriminate|]. destruct (contains _ l); [|discriminate].
  destruct (potcar_symbol l); [|intros H; injection H as <-; eauto].
  destruct (potcar_loop f) as [[ss r]|e']; cbn; [discriminate|]. intros H. injection H as <-. apply IH. reflexivity.
Qed.
Lemma potcar_head f l f1 s ss f2 :
  first_with (txt "POTCAR:    ") f l f1 -> element_of l s -> potcar_loop f1 = Ok (ss, f2) ->
  potcar_block f (if contains (txt "VRHFIN") (nth 0 f2 []) then removelast (s :: ss) else s :: ss) (tl f2).
Proof.
  intros Hs Hl Hp. apply potcar_loop_ok in Hp. destruct Hp as (more & P1 & P2 & P3).
  exists l, f1, more, f2, (s :: ss). split; [exact Hs|]. split; [constructor; assumption|]. split; [exact P2|].
  split; [exact P3|]. destruct (contains (txt "VRHFIN") (nth 0 f2 [])) eqn:Hv.
  - left. destruct f2 as [|v f2]; [discriminate|]. exists v. split; [reflexivity|]. apply contains_spec in Hv. split; [exact Hv|].
    apply removelast_snoc. discriminate.
  - right. split; [|split; reflexivity]. intros (v & r & -> & Ho). apply contains_false in Hv. contradiction.
Qed.
Lemma potcar_head_conv f names r : potcar_block f names r ->
  exists l f1 s ss f2, first_with (txt "POTCAR:    ") f l f1 /\ potcar_symbol l = Some s /\ potcar_loop f1 = Ok (ss, f2) /\
    (if contains (txt "VRHFIN") (nth 0 f2 []) then removelast (s :: ss) else s :: ss) = names /\ tl f2 = r.
Proof.
  intros (l & fa & more & after & all & Hs & Hall & Hm & P3 & Hv). inversion Hall as [|? s ? ss He Hss]; subst.
  exists l, fa, s, ss, after. split; [exact Hs|]. split; [apply potcar_symbol_spec; exact He|].
  split; [apply potcar_loop_ok; exists more; split; [exact Hss|]; split; [exact Hm|exact P3]|].
  destruct Hv as [(v & -> & Ho & w & Hw) | (Hno & -> & ->)].
  - apply contains_spec in Ho. cbn [nth tl]. rewrite Ho. rewrite Hw, removelast_last. auto.
  - split; [|reflexivity]. destruct (contains (txt "VRHFIN") (nth 0 after [])) eqn:Hc'; [|reflexivity].
    exfalso. apply Hno. destruct after as [|v r']; [discriminate|]. apply contains_spec in Hc'. exists v, r'. auto.
Qed.
Lemma symbols_err f e : outcar_symbols f = Err e -> (exists m, e = InvalidFileException m) \/ (e = ValueError /\ bad_counts f).
Proof.
  unfold outcar_symbols. destruct (or_invalid _ (skip_until _ f)) as [[l f1]|e1] eqn:Hs; cbn [rbind].
  - apply or_invalid_ok, skip_until_ok in Hs. destruct (potcar_symbol l) as [s|] eqn:Hl; [|intros H; injection H as <-; eauto].
    apply potcar_symbol_spec in Hl. destruct (potcar_loop f1) as [[ss f2]|e2] eqn:Hp; cbn [rbind].
    + rewrite next_line_nth. destruct (or_invalid _ (skip_until _ (tl f2))) as [[l4 f4]|e3] eqn:Hi; cbn [rbind].
      * apply or_invalid_ok, skip_until_ok in Hi. destruct (ints _) as [ns|] eqn:Hc; [discriminate|]. intros H. injection H as <-.
        right. split; [reflexivity|]. eexists _, (tl f2), l4, f4. split; [eapply potcar_head; eassumption|]. split; [exact Hi|].
        intros [c H]. apply ints_spec in H. congruence.
      * apply or_invalid_skip in Hi. destruct Hi as [-> _]. intros H. injection H as <-. eauto.
    + apply potcar_loop_err in Hp. destruct Hp as [m ->]. intros H. injection H as <-. eauto.
  - apply or_invalid_skip in Hs. destruct Hs as [-> _]. intros H. injection H as <-. eauto.
Qed.
Lemma bad_counts_err f : bad_counts f -> outcar_symbols f = Err ValueError.
Proof.
  intros (names & f1 & l & rest & Hp & Hi & Hn). apply potcar_head_conv in Hp. destruct Hp as (l0 & f0 & s & ss & f2 & Hs & Hl & Hp & _ & <-).
  unfold outcar_symbols. apply skip_until_ok in Hs, Hi. rewrite Hs. cbn [or_invalid rbind]. rewrite Hl, Hp. cbn [rbind].
  rewrite next_line_nth. cbv iota beta. rewrite Hi. cbn [or_invalid rbind]. destruct (ints _) as [ns|] eqn:Hc; [|reflexivity].
  exfalso. apply Hn. exists ns. apply ints_spec. exact Hc.
Qed.
Lemma table_err E msg n f e : table E msg n f = Err e ->
  (exists m, e = InvalidFileException m) \/ (e = ValueError /\ ragged E n f).
Proof.
  unfold table. destruct (table_rows E msg n f) as [[rs r]|e'] eqn:Ht; cbn [rbind].
  - destruct (np_rows rs) as [a|e'] eqn:Hn; cbn [rbind]; [discriminate|]. intros H. injection H as <-.
    apply np_rows_err in Hn. destruct Hn as [-> (x & y & H)]. right. split; [reflexivity|]. apply table_rows_ok in Ht. exists rs, x, y. tauto.
  - apply table_rows_err in Ht. destruct Ht as (i & _ & _ & _ & ->). intros H. injection H as <-. left. eauto.
Qed.
Lemma ragged_err E msg n f : ragged E n f -> table E msg n f = Err ValueError.
Proof.
  intros (rs & r & r' & Hr & Hd). unfold table.
  assert (Ht : table_rows E msg n f = Ok (rs, skipn n f)) by (apply table_rows_ok; auto). rewrite Ht. cbn [rbind].
  assert (He : np_rows rs = Err ValueError) by (apply np_rows_err; eauto). rewrite He. reflexivity.
Qed.
Lemma f_C58_errors E content f e : file_lines content f -> outcar_read_positions E content = Err e ->
  (exists m, e = InvalidFileException m) \/ e = ValueError.
Proof.
  intros Hf. apply file_lines_open in Hf. unfold outcar_read_positions. rewrite <- Hf.
  destruct (outcar_symbols f) as [[s r]|e1] eqn:Hs; cbn [rbind].
  - unfold outcar_fractional. destruct (or_invalid _ _) as [[l f1]|e2] eqn:Hm; cbn [rbind].
    + destruct (table _ _ _ _) as [[a r']|e3] eqn:Ht; cbn [rbind]; [discriminate|]. intros H. injection H as <-.
      apply table_err in Ht. tauto.
    + apply or_invalid_skip in Hm. destruct Hm as [-> _]. intros H. injection H as <-. eauto.
  - intros H. injection H as <-. apply symbols_err in Hs. tauto.
Qed.
Lemma f_C58_value_error E content f : file_lines content f ->
  outcar_read_positions E content = Err ValueError <->
  bad_counts f \/
  (exists symbols r l r1, species f symbols r /\
     first_with (txt "position of ions in fractional coordinates (direct lattice)") r l r1 /\
     ragged E (List.length symbols) r1).
Proof.
  intros Hf. apply file_lines_open in Hf. unfold outcar_read_positions. rewrite <- Hf. split.
  - destruct (outcar_symbols f) as [[s r]|e1] eqn:Hs; cbn [rbind].
    + unfold outcar_fractional. destruct (or_invalid _ _) as [[l f1]|e2] eqn:Hm; cbn [rbind].
      * destruct (table _ _ _ _) as [[a r']|e3] eqn:Ht; cbn [rbind]; [discriminate|]. intros H. injection H as ->.
        apply table_err in Ht. destruct Ht as [[m Ht] | [_ Ht]]; [discriminate|]. right.
        apply symbols_ok in Hs. apply or_invalid_ok, skip_until_ok in Hm. exists s, r, l, f1. auto.
      * apply or_invalid_skip in Hm. destruct Hm as [-> _]. discriminate.
    + intros H. injection H as ->. apply symbols_err in Hs. destruct Hs as [[m Hs] | [_ Hs]]; [discriminate|]. left. exact Hs.
  - intros [H | (s & r & l & r1 & Hs & Hm & Hr)]; [rewrite (bad_counts_err _ H); reflexivity|].
    apply symbols_ok in Hs. rewrite Hs. cbn [rbind]. unfold outcar_fractional. apply skip_until_ok in Hm. rewrite Hm. cbn [or_invalid rbind].
    rewrite (ragged_err _ _ _ _ Hr). reflexivity.
Qed.

(** ** Arrays *)
Lemma rows_n3_flat l : rows_n3 (flat_map entries3 l) = l.
Proof. induction l as [|[a b c] l IH]; [reflexivity|]. cbn. rewrite IH. reflexivity. Qed.
Lemma matrix_inv E A B : mmul A B = mI -> inv_arr E (matrix A) = Ok (rows3 B).
Proof.
  intros H. unfold inv_arr, matrix, array2. cbn [na_shape na_data List.length Nat.eqb]. rewrite rows_n3_flat. unfold np_inv.
  change (map fin3 [r0 A; r1 A; r2 A]) with (rows3 A). rewrite finite33_rows.
  assert (Hd : mdet A <> 0%R).
  { intros Z. assert (mdet (mmul A B) = 1%R) by (rewrite H; apply mdet_mI). rewrite mdet_mmul, Z in H0. lra. }
  destruct (minv_exists A Hd) as [i Hi]. rewrite Hi. cbn. rewrite (minv_unique _ _ _ Hi H). reflexivity.
Qed.
Lemma map_wrap_entries l : map wrap_num (flat_map entries3 (map fin3 l)) = flat_map entries3 (map fin3 (map (vmap wrap) l)).
Proof. induction l as [|[a b c] l IH]; [reflexivity|]. cbn. cbn in IH. rewrite IH. reflexivity. Qed.
Lemma flat_map_map_rows vs B : flat_map (fun v => entries3 (row_mul v (rows3 B))) (map fin3 vs) = flat_map entries3 (map fin3 (rows_mul vs B)).
Proof. induction vs as [|v vs IH]; [reflexivity|]. cbn [map flat_map rows_mul]. rewrite row_mul_fin, IH. reflexivity. Qed.
Lemma matmul_array2 vs B : matmul_inv (array2 vs) (rows3 B) = Ok (array2 (rows_mul vs B)).
Proof.
  unfold matmul_inv, array2. cbn [na_shape na_data Nat.eqb]. rewrite rows_n3_flat, flat_map_map_rows. unfold rows_mul at 2. rewrite map_length.
  reflexivity.
Qed.
Lemma array2_data k : concat (map na_data (map array2 k)) = flat_map entries3 (map fin3 (concat k)).
Proof. induction k as [|x k IH]; [reflexivity|]. cbn [map concat]. rewrite map_app, flat_map_app, <- IH. reflexivity. Qed.
Lemma np_stack_array2 n fs : fs <> [] -> Forall (fun f => List.length f = n) fs -> np_stack (map array2 fs) = Ok (array3 n fs).
Proof.
  intros Hn H. destruct fs as [|a fs]; [congruence|]. inversion H as [|? ? Ha Hfs]; subst. unfold np_stack. cbn [map].
  replace (forallb _ (map array2 fs)) with true.
  - unfold array3, array2 at 2. cbn [na_shape]. do 2 f_equal; [cbn; rewrite map_length; reflexivity|].
    exact (array2_data (a :: fs)).
  - symmetry. apply forallb_forall. intros x Hx. apply in_map_iff in Hx. destruct Hx as (y & <- & Hy).
    rewrite Forall_forall in Hfs. unfold array2. cbn [na_shape]. rewrite (Hfs _ Hy).
    destruct (list_eq_dec Nat.eq_dec _ _); [reflexivity|congruence].
Qed.

(** ** C59 *)
Fixpoint keep (prev : bool) (bs : list block) : list (list V3) :=
  match bs with
  | [] => []
  | (ml, vs) :: bs' => if prev && negb ml then keep ml bs' else vs :: keep ml bs'
  end.
Lemma first_with_length m f l r : first_with m f l r -> List.length r < List.length f.
Proof. intros (pre & -> & _). rewrite app_length. cbn. lia. Qed.
Lemma first_with_junk m junk f l r : nowhere m junk -> first_with m f l r -> first_with m (junk ++ f) l r.
Proof. intros H (pre & -> & Hp & Hl). exists (junk ++ pre). rewrite app_assoc. split; [reflexivity|]. split; [apply Forall_app; auto|exact Hl]. Qed.
Lemma blocks_in_junk E n junk f bs : nowhere block_marker junk -> blocks_in E n f bs -> blocks_in E n (junk ++ f) bs.
Proof.
  intros Hj H. destruct H as [f H|f l sep body f' ml vs bs H1 H2 H3 H4 H5 H6 H7].
  - apply blocks_nil. apply Forall_app. auto.
  - eapply blocks_cons; eauto. apply first_with_junk; assumption.
Qed.
Lemma blocks_loop_ok E n lat B : 0 < n -> inv_arr E lat = Ok (rows3 B) -> forall fuel f bs prev,
  List.length f < fuel -> blocks_in E n f bs ->
  blocks_loop E fuel n lat prev f = Ok (map (fun vs => array2 (rows_mul vs B)) (keep prev bs)).
Proof.
  intros Hn Hinv. induction fuel as [|fuel IH]; intros f bs prev Hf Hb; [lia|]. cbn [blocks_loop]. change position_marker with block_marker.
  destruct Hb as [f H|f l sep body f' ml vs bs H1 H2 H3 H4 H5 H6 H7].
  - assert (Hs : skip_until block_marker f = Err NoMatchingLineFoundException) by (apply skip_until_err; auto).
    rewrite Hs. reflexivity.
  - pose proof (first_with_length _ _ _ _ H1) as Hl. apply skip_until_ok in H1. rewrite H1.
    assert (Hml : contains (txt "(ML)") l = ml).
    { destruct ml; [apply contains_spec, H2; reflexivity|]. apply contains_false. intros Ho. apply H2 in Ho. discriminate. }
    rewrite Hml. cbn [keep]. destruct (prev && negb ml).
    + apply IH; [cbn in *; lia|]. apply (blocks_in_junk _ _ (sep :: body)); [constructor; assumption|exact H7].
    + unfold outcar_next_cart. cbn [next_line snd].
      assert (Ht : table E "Cartesian positions could not be parsed: " n (body ++ f') = Ok (array2 vs, f')).
      { apply table_ok. rewrite <- H6, <- (f2len H5). apply rows3_table; [|exact H5]. intros ->. cbn in H6. lia. }
      rewrite Ht. cbn [rbind]. rewrite Hinv. cbn [rbind]. rewrite matmul_array2. cbn [rbind].
      rewrite (IH f' bs ml); [reflexivity| |exact H7]. cbn in Hl. rewrite app_length in Hl. lia.
Qed.

Definition counts_prev (prev : bool) (bs : list block) (i : nat) : Prop :=
  exists b, nth_error bs i = Some b /\
    (fst b = true \/ (i = 0 /\ prev = false) \/ (i <> 0 /\ exists b', nth_error bs (i - 1) = Some b' /\ fst b' = false)).
Lemma sorted_map_S l : Sorted.StronglySorted lt l -> Sorted.StronglySorted lt (map S l).
Proof.
  induction 1 as [|a l H IH Ha]; [constructor|]. cbn. constructor; [exact IH|]. apply Forall_forall. intros x Hx.
  apply in_map_iff in Hx. destruct Hx as (y & <- & Hy). rewrite Forall_forall in Ha. specialize (Ha y Hy). lia.
Qed.
Lemma keep_steps : forall bs prev, exists idx, Sorted.StronglySorted lt idx /\ (forall i, In i idx <-> counts_prev prev bs i) /\
    Forall2 (fun i vs => exists ml, nth_error bs i = Some (ml, vs)) idx (keep prev bs).
Proof.
  induction bs as [|[ml vs] bs IH]; intros prev.
  - exists []. split; [constructor|]. split; [|constructor]. intros i. split; [intros []|]. intros (b & Hb & _). destruct i; discriminate.
  - destruct (IH ml) as (idx & Hs & Hi & Hk).
    assert (HS : forall i, counts_prev prev ((ml, vs) :: bs) (S i) <-> counts_prev ml bs i).
    { intros i. unfold counts_prev. cbn [nth_error]. split; intros (b & Hb & H); exists b; (split; [exact Hb|]).
      - destruct H as [H | [[H _] | [_ (b' & Hb' & H)]]]; [left; exact H|discriminate|]. right.
        replace (S i - 1) with i in Hb' by lia. destruct i as [|i]; [left; cbn in Hb'; injection Hb' as <-; auto|].
        right. split; [lia|]. exists b'. cbn in Hb'. replace (S i - 1) with i by lia. auto.
      - destruct H as [H | [[-> H] | [Hi0 (b' & Hb' & H)]]]; [left; exact H| |].
        + right. right. split; [lia|]. exists (ml, vs). cbn. auto.
        + right. right. split; [lia|]. exists b'. replace (S i - 1) with i by lia. destruct i as [|i]; [congruence|].
          cbn. replace (S i - 1) with i in Hb' by lia. auto. }
    assert (HF : Forall2 (fun i vs0 => exists ml0, nth_error ((ml, vs) :: bs) i = Some (ml0, vs0)) (map S idx) (keep ml bs)).
    { clear -Hk. induction Hk as [|i v idx l H _ IHk]; constructor; [exact H|exact IHk]. }
    cbn [keep]. destruct (prev && negb ml) eqn:Hp.
    + exists (map S idx). split; [apply sorted_map_S; exact Hs|]. split; [|exact HF]. intros i. destruct i as [|i].
      * split; [intros H; apply in_map_iff in H; destruct H as (x & H & _); discriminate|].
        intros (b & Hb & H). cbn in Hb. injection Hb as <-. apply andb_prop in Hp. destruct Hp as [-> Hml]. destruct ml; [discriminate|].
        cbn in H. destruct H as [H | [[_ H] | [H _]]]; [discriminate|discriminate|congruence].
      * rewrite HS, <- Hi. split; [|apply in_map]. intros H. apply in_map_iff in H. destruct H as (x & H & Hx). injection H as <-. exact Hx.
    + exists (0 :: map S idx). split.
      { constructor; [apply sorted_map_S; exact Hs|]. apply Forall_forall. intros x Hx. apply in_map_iff in Hx. destruct Hx as (y & <- & _). lia. }
      split; [|constructor; [exists ml; reflexivity|exact HF]]. intros i. destruct i as [|i].
      * split; [intros _|left; reflexivity]. exists (ml, vs). split; [reflexivity|]. cbn [fst].
        destruct ml; [left; reflexivity|]. right. left. split; [reflexivity|]. destruct prev; [discriminate|reflexivity].
      * rewrite HS, <- Hi. split.
        -- intros [H | H]; [discriminate|]. apply in_map_iff in H. destruct H as (x & H & Hx). injection H as <-. exact Hx.
        -- intros H. right. apply in_map. exact H.
Qed.
Lemma counts_prev_step bs i : counts_prev false bs i <-> counts_as_step bs i.
Proof.
  unfold counts_prev, counts_as_step. split; intros (b & Hb & H); exists b; (split; [exact Hb|]).
  - destruct H as [H | [[H _] | [_ H]]]; auto.
  - destruct H as [H | [H | H]]; [auto|auto|]. destruct (Nat.eq_dec i 0); auto.
Qed.
Lemma steps_exist bs : steps_are bs (keep false bs).
Proof.
  destruct (keep_steps bs false) as (idx & Hs & Hi & Hk). exists idx. split; [exact Hs|]. split; [|exact Hk].
  intros i. rewrite Hi. apply counts_prev_step.
Qed.
Lemma sorted_unique : forall l m : list nat, Sorted.StronglySorted lt l -> Sorted.StronglySorted lt m ->
  (forall i, In i l <-> In i m) -> l = m.
Proof.
  induction l as [|a l IH]; intros m Hl Hm H.
  - destruct m as [|b m]; [reflexivity|]. exfalso. apply (H b). left. reflexivity.
  - destruct m as [|b m]; [exfalso; apply (H a); left; reflexivity|]. inversion Hl as [|? ? Hl' Ha]; subst. inversion Hm as [|? ? Hm' Hb]; subst.
    rewrite Forall_forall in Ha, Hb.
    assert (a = b) as ->.
    { destruct (proj1 (H a) (or_introl eq_refl)) as [<- | Hin]; [reflexivity|]. destruct (proj2 (H b) (or_introl eq_refl)) as [-> | Hin']; [reflexivity|].
      specialize (Ha b Hin'). specialize (Hb a Hin). lia. }
    f_equal. apply IH; [exact Hl'|exact Hm'|]. intros i. split; intros Hin.
    + destruct (proj1 (H i) (or_intror Hin)) as [<- | ?]; [|assumption]. specialize (Ha b Hin). lia.
    + destruct (proj2 (H i) (or_intror Hin)) as [<- | ?]; [|assumption]. specialize (Hb b Hin). lia.
Qed.
Lemma steps_unique bs l l' : steps_are bs l -> steps_are bs l' -> l = l'.
Proof.
  intros (i1 & S1 & I1 & F1) (i2 & S2 & I2 & F2). assert (i1 = i2) as <- by (apply sorted_unique; [assumption|assumption|]; intros i; rewrite I1, I2; reflexivity).
  clear -F1 F2. revert l' F2. induction F1 as [|i v idx l H _ IH]; intros l' F2; inversion F2 as [|? v' ? ? H' F2']; subst; [reflexivity|].
  destruct H as [a H], H' as [b H']. rewrite H in H'. injection H' as _ ->. f_equal. apply IH. assumption.
Qed.
Lemma f_C59_steps bs : exists l, steps_are bs l /\ forall l', steps_are bs l' -> l' = l.
Proof. exists (keep false bs). split; [apply steps_exist|]. intros l' H. eapply steps_unique; [exact H|apply steps_exist]. Qed.
Lemma keep_length E n f bs : blocks_in E n f bs -> forall prev, Forall (fun vs => List.length vs = n) (keep prev bs).
Proof.
  induction 1 as [f H|f l sep body f' ml vs bs H1 H2 H3 H4 H5 H6 H7 IH]; intros prev; [constructor|].
  cbn [keep]. destruct (prev && negb ml); [apply IH|constructor; [exact H6|apply IH]].
Qed.

Lemma timestep_ok E f l r dt : first_with (txt "time-step for ionic-motion") f l r -> timestep_line E l dt ->
  outcar_timestep E f = Ok (dt, r).
Proof.
  intros H (w & Hw & Hd). unfold outcar_timestep. apply skip_until_ok in H. rewrite H. cbn [or_invalid rbind].
  unfold word_float. rewrite Hw, Hd. reflexivity.
Qed.
Lemma f_C59 E content f symbols r0 lt r1 dt A B r2 bs steps : file_lines content f ->
  species f symbols r0 -> symbols <> [] ->
  first_with (txt "time-step for ionic-motion") r0 lt r1 -> timestep_line E lt (Fin dt) -> (0 < dt)%R ->
  lattice_block E r1 (matrix A) r2 -> mmul A B = mI ->
  blocks_in E (List.length symbols) r2 bs -> bs <> [] -> steps_are bs steps ->
  exists fs, outcar_read_trajectory E content = Ok (array3 (List.length symbols) fs, Fin dt) /\
    Forall2 (fun cart frac => cell_images (rows_mul cart B) frac) steps fs.
Proof.
  intros Hf Hs Hne Ht Htl Hdt Hl HAB Hb Hbs Hst. apply file_lines_open in Hf. unfold outcar_read_trajectory. rewrite <- Hf.
  apply symbols_ok in Hs. rewrite Hs. cbn [rbind]. rewrite (timestep_ok _ _ _ _ _ Ht Htl). cbn [rbind].
  apply lattice_ok in Hl. rewrite Hl. cbn [rbind].
  assert (Hn : 0 < List.length symbols) by (destruct symbols; [congruence|cbn; lia]).
  rewrite (blocks_loop_ok E _ _ B Hn (matrix_inv E A B HAB) _ r2 bs false (Nat.lt_succ_diag_r _) Hb). cbn [rbind].
  rewrite <- (steps_unique _ _ _ Hst (steps_exist bs)) in *.
  assert (Hk : steps <> []).
  { rewrite (steps_unique _ _ _ Hst (steps_exist bs)). destruct bs as [|[ml vs] bs]; [congruence|]. cbn. discriminate. }
  assert (Hlen : Forall (fun vs => List.length vs = List.length symbols) steps).
  { rewrite (steps_unique _ _ _ Hst (steps_exist bs)). eapply keep_length. exact Hb. }
  exists (map (fun vs => map (vmap wrap) (rows_mul vs B)) steps). split.
  - replace (map (fun vs => array2 (rows_mul vs B)) steps) with (map array2 (map (fun vs => rows_mul vs B) steps)) by (rewrite map_map; reflexivity).
    pose proof (np_stack_array2 (List.length symbols) (map (fun vs => rows_mul vs B) steps)) as HN.
    destruct (map array2 (map (fun vs => rows_mul vs B) steps)) eqn:Hm; [destruct steps; [congruence|discriminate]|].
    rewrite HN.
    + cbn [rbind]. unfold trajectory_of, array3. cbn [na_shape na_data].
      change (verify_ndarray_shape _ _) with (Ok tt). cbn [rbind]. unfold num_le0, Rleb. destruct (Rle_dec dt 0); [lra|].
      do 3 f_equal; [rewrite !map_length; reflexivity|]. rewrite map_wrap_entries. do 2 f_equal.
      rewrite concat_map, map_map. reflexivity.
    + destruct steps; [congruence|discriminate].
    + apply Forall_forall. intros x Hx. apply in_map_iff in Hx. destruct Hx as (y & <- & Hy). rewrite Forall_forall in Hlen.
      unfold rows_mul. rewrite map_length. apply Hlen. exact Hy.
  - clear. induction steps as [|v steps IH]; constructor; [|exact IH].
    unfold cell_images. induction (rows_mul v B) as [|x xs IHx]; constructor; [|exact IHx]. unfold vall2, vmap. cbn. repeat split; apply wrap_image.
Qed.
Lemma f_C59_none E content f symbols r0 lt r1 dt lat r2 : file_lines content f ->
  species f symbols r0 ->
  first_with (txt "time-step for ionic-motion") r0 lt r1 -> timestep_line E lt dt ->
  lattice_block E r1 lat r2 -> nowhere block_marker r2 ->
  outcar_read_trajectory E content = Err (InvalidFileException (txt "no trajectory found")).
Proof.
  intros Hf Hs Ht Htl Hl Hb. apply file_lines_open in Hf. unfold outcar_read_trajectory. rewrite <- Hf.
  apply symbols_ok in Hs. rewrite Hs. cbn [rbind]. rewrite (timestep_ok _ _ _ _ _ Ht Htl). cbn [rbind].
  apply lattice_ok in Hl. rewrite Hl. cbn [rbind]. cbn [blocks_loop]. change position_marker with block_marker.
  assert (Hk : skip_until block_marker r2 = Err NoMatchingLineFoundException) by (apply skip_until_err; auto).
  rewrite Hk. reflexivity.
Qed.

(** ** C61, OUTCAR *)
Lemma eigen_loop_ok E n lat B : inv_arr E lat = Ok (rows3 B) -> forall body vs, vectors_in E body vs -> forall acc tail,
  List.length acc + List.length vs = n ->
  eigen_loop E n lat acc (body ++ tail) = Ok (rev acc ++ map (fun v => fin3 (vmul v B)) vs, tl tail).
Proof.
  intros Hi body vs H. induction H as [|l f vs Hx H IH Hv|l f v vs Hx Hvec H IH]; intros acc tail Hl; cbn [app].
  - rewrite app_nil_r. cbn in Hl. destruct tail as [|l tail]; cbn [eigen_loop tl]; [reflexivity|].
    rewrite (proj2 (Nat.eqb_eq _ _)) by lia. reflexivity.
  - cbn [eigen_loop]. rewrite (proj2 (Nat.eqb_neq _ _)) by (destruct vs; [congruence|cbn in Hl; lia]).
    apply contains_spec in Hx. rewrite Hx. apply IH. exact Hl.
  - cbn [eigen_loop]. cbn in Hl. rewrite (proj2 (Nat.eqb_neq _ _)) by lia. apply contains_false in Hx. rewrite Hx.
    destruct Hvec as (a & b & c & Hs & Ha & Hb & Hc). rewrite Hs. cbn [floats]. rewrite Ha, Hb, Hc. rewrite Hi. cbn [option_map].
    change (mkN3 (Fin (vx v)) (Fin (vy v)) (Fin (vz v))) with (fin3 v). rewrite row_mul_fin, IH by (cbn; lia).
    cbn [rev map]. rewrite <- app_assoc. reflexivity.
Qed.
Lemma mode_line_ok E f l r w : first_with (txt "cm-1") f l r -> wavenumber_of E l w -> read_mode_line E f = Ok (w, r).
Proof.
  intros Hf Hw. unfold read_mode_line. apply skip_until_ok in Hf. rewrite Hf. cbn [or_invalid rbind].
  destruct Hw as [(Ho & s & x & Hs & Hx & ->) | (Ho & s & Hs & Hx)].
  - apply contains_spec in Ho. rewrite Ho. unfold word_float. rewrite Hs, Hx. reflexivity.
  - apply contains_false in Ho. rewrite Ho. unfold word_float. rewrite Hs, Hx. reflexivity.
Qed.
Lemma mode_loop_ok E n lat B : inv_arr E lat = Ok (rows3 B) -> 0 < n -> forall f ms, modes_in E n f ms ->
  mode_loop E (List.length ms) n lat f = Ok (map fst ms, map (fun m => array2 (rows_mul (snd m) B)) ms).
Proof.
  intros Hi Hn f ms H. induction H as [f|f l body f' w vs ms H1 H2 H3 H4 H5 IH]; [reflexivity|].
  cbn [List.length mode_loop]. rewrite (mode_line_ok _ _ _ _ _ H1 H2). cbn [rbind].
  rewrite (eigen_loop_ok E n lat B Hi _ _ H3 []) by (cbn; exact H4). cbn [rbind rev app]. rewrite IH. cbn [rbind map fst snd].
  do 3 f_equal. destruct vs as [|v vs]; [cbn in H4; lia|]. unfold narr_of_rows, array2, rows_mul. cbn [map]. do 2 f_equal.
  - cbn. rewrite !map_length. reflexivity.
  - rewrite map_map. reflexivity.
Qed.
Lemma modes_length E n f ms : modes_in E n f ms -> Forall (fun m => List.length (snd m) = n) ms.
Proof. induction 1; constructor; assumption. Qed.

Definition weight_check : bool :=
  forallb (fun p => match find (fun e => teqb (txt (fst e)) (txt (fst p))) atomic_weights with
                    | Some e => Z.eqb (Qnum (snd e)) (Qnum (snd p)) && Pos.eqb (Qden (snd e)) (Qden (snd p))
                    | None => false end) atomic_weights.
Lemma weights_checked : weight_check = true. Proof. vm_compute. reflexivity. Qed.
Lemma masses_ok symbols ms : masses_are symbols ms -> mapM atomic_weight symbols = Ok ms.
Proof.
  intros H. apply mapM_Ok. induction H as [|w m ws ms (n & q & Hin & -> & ->) _ IH]; constructor; [|exact IH].
  pose proof weights_checked as D. unfold weight_check in D. rewrite forallb_forall in D. specialize (D _ Hin). cbn [fst snd] in D.
  unfold atomic_weight. destruct (find _ atomic_weights) as [[n' [a b]]|]; [|discriminate]. cbn [snd Qnum Qden] in *.
  apply andb_prop in D. destruct D as [D1 D2]. apply Z.eqb_eq in D1. apply Pos.eqb_eq in D2. subst. destruct q. reflexivity.
Qed.
Lemma n3_div_fin v c : n3_div (fin3 v) c = fin3 (vscale (/ c) v).
Proof. unfold n3_div, fin3, vscale. cbn [nx ny nz num_div vx vy vz]. f_equal; f_equal; unfold Rdiv; ring. Qed.
Lemma div_rows_fin B : forall vs ms, div_rows (map fin3 (rows_mul vs B)) ms = map fin3 (displacements_of B ms vs).
Proof.
  induction vs as [|v vs IH]; intros ms; [reflexivity|]. destruct ms as [|m ms]; [reflexivity|].
  cbn [rows_mul map div_rows]. rewrite n3_div_fin. unfold displacements_of. cbn [combine map fst snd]. f_equal. apply IH.
Qed.
Lemma chunks_concat n : forall (l : list (list n3)), Forall (fun x => List.length x = n) l -> chunks n (List.length l) (concat l) = l.
Proof.
  induction 1 as [|x l Hx _ IH]; [reflexivity|]. cbn [List.length chunks concat].
  assert (H1 : firstn n (x ++ concat l) = x) by (rewrite <- Hx, firstn_app, firstn_all, Nat.sub_diag; cbn; apply app_nil_r).
  assert (H2 : skipn n (x ++ concat l) = concat l) by (rewrite <- Hx, skipn_app, skipn_all, Nat.sub_diag; reflexivity).
  rewrite H1, H2, IH. reflexivity.
Qed.
Lemma frames_array3 n fs : Forall (fun x => List.length x = n) fs -> frames_n3 (array3 n fs) = map (map fin3) fs.
Proof.
  intros H. unfold frames_n3, array3. cbn [na_shape na_data nth]. rewrite rows_n3_flat, concat_map.
  rewrite <- (map_length (map fin3) fs). apply chunks_concat. apply Forall_forall. intros x Hx. apply in_map_iff in Hx.
  destruct Hx as (y & <- & Hy). rewrite map_length. rewrite Forall_forall in H. apply H. exact Hy.
Qed.
Lemma div_weights_ok B n mw (vss : list (list V3)) : List.length mw = n -> Forall (fun x => List.length x = n) vss ->
  div_weights (array3 n (map (fun vs => rows_mul vs B) vss)) mw = Ok (array3 n (map (displacements_of B mw) vss)).
Proof.
  intros Hm Hv. unfold div_weights. rewrite frames_array3.
  2:{ apply Forall_forall. intros x Hx. apply in_map_iff in Hx. destruct Hx as (y & <- & Hy). unfold rows_mul. rewrite map_length.
      rewrite Forall_forall in Hv. apply Hv. exact Hy. }
  unfold array3. cbn [na_shape]. rewrite !map_length.
  assert (HM : mapM (fun f => div_frame f mw) (map (map fin3) (map (fun vs => rows_mul vs B) vss)) = Ok (map (map fin3) (map (displacements_of B mw) vss))).
  { apply mapM_Ok. clear -Hv Hm. induction Hv as [|vs vss H _ IH]; constructor; [|exact IH]. unfold div_frame.
    rewrite map_length. unfold rows_mul at 1. rewrite map_length, H, Hm, Nat.eqb_refl, div_rows_fin. reflexivity. }
  rewrite HM. cbn [rbind]. do 2 f_equal.
  - do 2 f_equal. destruct (Nat.eqb_spec n 1); congruence.
  - f_equal. rewrite concat_map. reflexivity.
Qed.
Lemma array2_rows E n f ps r : table_at E n f (array2 ps) r -> List.length ps = n.
Proof.
  intros (rs & [Hl _] & Ha & _). unfold array2 in Ha. destruct Ha as [[_ H] | (_ & k & _ & H)]; [discriminate|].
  injection H as H _ _. congruence.
Qed.
Lemma f_C61_outcar E content f symbols f0 masses A B f1 ps f2 lm f3 ms : file_lines content f ->
  species f symbols f0 -> symbols <> [] -> masses_are symbols masses ->
  lattice_block E f0 (matrix A) f1 -> mmul A B = mI ->
  fractional_block E (List.length symbols) f1 (array2 ps) f2 ->
  first_with (txt "Eigenvectors and eigenvalues of the dynamical matrix") f2 lm f3 ->
  modes_in E (List.length symbols) f3 ms -> List.length ms = List.length symbols * 3 ->
  outcar_read_phonons E content =
    Ok (array2 ps, mkNarr [List.length ms] (map fst ms),
        array3 (List.length symbols) (map (fun m => displacements_of B masses (snd m)) ms)).
Proof.
  intros Hf Hs Hne Hm Hl HAB Hp Hk Hms Hlen. apply file_lines_open in Hf. unfold outcar_read_phonons. rewrite <- Hf.
  apply symbols_ok in Hs. rewrite Hs. cbn [rbind]. rewrite (masses_ok _ _ Hm). cbn [rbind].
  apply lattice_ok in Hl. rewrite Hl. cbn [rbind].
  assert (Hpl : List.length ps = List.length symbols) by (destruct Hp as (? & ? & _ & Ht); eapply array2_rows; exact Ht).
  apply fractional_ok in Hp. rewrite Hp. cbn [rbind]. apply skip_until_ok in Hk. rewrite Hk. cbn [or_invalid rbind].
  assert (Hn : 0 < List.length symbols) by (destruct symbols; [congruence|cbn; lia]).
  rewrite <- Hlen, (mode_loop_ok E _ _ B (matrix_inv E A B HAB) Hn _ _ Hms). cbn [rbind].
  replace (map (fun m => array2 (rows_mul (snd m) B)) ms) with (map array2 (map (fun vs => rows_mul vs B) (map snd ms))) by (rewrite !map_map; reflexivity).
  pose proof (modes_length _ _ _ _ Hms) as Hml.
  assert (Hml' : Forall (fun x => List.length x = List.length symbols) (map snd ms)).
  { clear -Hml. induction Hml; constructor; assumption. }
  rewrite (np_stack_array2 (List.length symbols)).
  - cbn [rbind]. rewrite div_weights_ok; [|symmetry; apply (f2len Hm)|exact Hml']. cbn [rbind]. rewrite map_length, map_map.
    unfold phonons_of. cbn [na_shape].
    unfold array2 at 1, array3 at 1. cbn [na_shape hd]. rewrite !map_length, Hpl.
    change (verify_ndarray_shape [List.length symbols; 3] [None; Some 3]) with (Ok tt). cbn [rbind].
    change (verify_ndarray_shape [List.length ms] [None]) with (Ok tt). cbn [rbind].
    unfold verify_ndarray_shape. cbn [List.length Nat.eqb negb dims_match hd]. rewrite !Nat.eqb_refl.
    unfold array2 at 1. cbn [na_shape hd]. rewrite Hpl, Nat.eqb_refl. cbn [Nat.eqb rbind]. reflexivity.
  - destruct ms; [cbn in Hlen; lia|discriminate].
  - clear -Hml'. induction Hml'; constructor; [|assumption]. unfold rows_mul. rewrite map_length. assumption.
Qed.
(** The sign of a wavenumber *)
Lemma f_C61_imaginary E l w x : wavenumber_of E l w -> occurs (txt "f/i") l ->
  (exists s, nth_error (split l) 6 = Some s /\ float_of (e_fl E) s = Some (Fin x)) -> (0 < x)%R ->
  exists r, w = Fin r /\ (r < 0)%R.
Proof.
  intros [(_ & s & y & Hs & Hy & ->) | [H _]] Ho (s' & Hs' & Hx) Hp; [|contradiction].
  rewrite Hs' in Hs. injection Hs as <-. rewrite Hx in Hy. injection Hy as <-. exists (- x)%R. split; [reflexivity|lra].
Qed.
Lemma f_C61_modes_order E content f symbols f0 masses A B f1 ps f2 lm f3 ms ref wav disp k w vs : file_lines content f ->
  species f symbols f0 -> symbols <> [] -> masses_are symbols masses ->
  lattice_block E f0 (matrix A) f1 -> mmul A B = mI ->
  fractional_block E (List.length symbols) f1 (array2 ps) f2 ->
  first_with (txt "Eigenvectors and eigenvalues of the dynamical matrix") f2 lm f3 ->
  modes_in E (List.length symbols) f3 ms -> List.length ms = List.length symbols * 3 ->
  outcar_read_phonons E content = Ok (ref, wav, disp) -> nth_error ms k = Some (w, vs) ->
  nth_error (na_data wav) k = Some w.
Proof.
  intros H1 H2 H3 H4 H5 H6 H7 H8 H9 H10 H Hk. rewrite (f_C61_outcar _ _ _ _ _ _ _ _ _ _ _ _ _ _ H1 H2 H3 H4 H5 H6 H7 H8 H9 H10) in H.
  injection H as _ <- _. cbn [na_data]. rewrite nth_error_map, Hk. reflexivity.
Qed.
