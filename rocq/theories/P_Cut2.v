(** Reading structure and trajectory files whose writing was interrupted: whole files. *)
From Coq Require Import String Ascii ZArith NArith Reals Lra Lia Psatz Bool Arith List.
From Verif Require Import Base LinAlg Constants M_Validate M_Spectrum M_Text M_Poscar M_Files S_Spectrum S_Text S_Files S_Cut
  P_Text P_Poscar P_Poscar2 P_Poscar3 P_Poscar4 P_Cut.
Import ListNotations.
Local Open Scope N_scope.

(** * Newlines *)
Definition nl (s : text) : nat := count_occ N.eq_dec s 10.
Lemma nl_app a b : nl (a ++ b) = (nl a + nl b)%nat.
Proof. apply count_occ_app. Qed.
Lemma nl_single s : single_line s -> nl s = 0%nat.
Proof. intros [H _]. apply count_occ_not_In. auto. Qed.
Lemma nl_line s : single_line s -> nl (s ++ [10]) = 1%nat.
Proof. intros H. rewrite nl_app, (nl_single s H). reflexivity. Qed.
Lemma nl_after s : (nl (after_line s) <= pred (nl s))%nat /\ (nl s = 0%nat -> after_line s = []).
Proof.
  unfold nl. induction s as [|c s [IH1 IH2]]; cbn [after_line count_occ]; [cbn; auto|]. destruct (N.eqb_spec c 10), (N.eq_dec c 10); try congruence.
  - split; [cbn; lia|discriminate].
  - auto.
Qed.
Lemma after_lines_nil k : after_lines k [] = [].
Proof. induction k; cbn; auto. Qed.
Lemma nl_few k : forall s, (nl s < k)%nat -> after_lines k s = [].
Proof.
  induction k as [|k IH]; intros s H; [lia|]. cbn [after_lines]. destruct (nl_after s) as [A B].
  destruct (Nat.eq_dec (nl s) 0) as [Z|Z]; [rewrite (B Z); apply after_lines_nil|apply IH; lia].
Qed.
Lemma nl_rows i vs : Forall (eq 32) i -> nl (flat_map (row_str i) vs) = List.length vs.
Proof.
  intros H. induction vs as [|v vs IH]; cbn [flat_map List.length]; auto. rewrite nl_app, IH. destruct (row_str_line i v H) as (l & -> & S). rewrite nl_line by auto. lia.
Qed.
Lemma nl_symbols u ks : Forall known u -> nl (symbols_text u ks) = 2%nat.
Proof.
  intros K. unfold symbols_text, NL.
  assert (S1 : single_line (join (txt "  ") (map sym_text u))).
  { apply single_join; [apply single_spaces; repeat constructor|]. apply Forall_forall. intros w I. apply in_map_iff in I as (n & <- & I).
    rewrite Forall_forall in K. apply nospace_single. apply (sym_text_ok n (K n I)). }
  assert (S2 : single_line (join (txt "   ") (map count_text ks))).
  { apply single_join; [apply single_spaces; repeat constructor|]. apply Forall_forall. intros w I. apply in_map_iff in I as (n & <- & I).
    apply nospace_single, nospace_str_int. }
  rewrite !nl_app, (nl_single _ S1), (nl_single _ S2). reflexivity.
Qed.
Lemma nl_header E label lat u ks : Forall known u -> List.length lat = 3%nat ->
  nl (concat (header E label (lattice_str lat) (symbols_text u ks))) = 7%nat.
Proof.
  intros K L. unfold header. cbn [concat]. rewrite app_nil_r. rewrite !nl_app. unfold NL. rewrite (nl_single (repr_body _ _)) by apply repr_single.
  unfold lattice_str. rewrite nl_rows, L, nl_symbols by (auto; repeat constructor). reflexivity.
Qed.
Lemma header_last E label lat u ks : exists h, concat (header E label (lattice_str lat) (symbols_text u ks)) = (h ++ [10])%list.
Proof.
  unfold header, symbols_text, NL. cbn [concat]. rewrite app_nil_r. rewrite !app_assoc. eexists. reflexivity.
Qed.

(** A cut within the header *)
Lemma cut_header E label lat u ks c d : Forall known u -> List.length lat = 3%nat ->
  concat (header E label (lattice_str lat) (symbols_text u ks)) = (c ++ d)%list -> d <> [] -> (nl c < 7)%nat.
Proof.
  intros K L H D. pose proof (nl_header E label lat u ks K L) as N. destruct (header_last E label lat u ks) as (h & EH).
  destruct (exists_last D) as (d' & x & ->). assert (x = 10).
  { rewrite EH, app_assoc in H. apply app_inj_tail in H. intuition. }
  subst x. rewrite H, !nl_app in N. change (nl [10]) with 1%nat in N. lia.
Qed.
Lemma read_short E c : (nl c < 7)%nat ->
  (exists m, (let* (lat, s1) := read_lattice E c in read_atomic_symbols s1) = Err (InvalidFileException m)) \/
  exists lat s1 symbols, read_lattice E c = Ok (lat, s1) /\ read_atomic_symbols s1 = Ok (symbols, []).
Proof.
  intros H. destruct (read_lattice E c) as [[lat s1]|e] eqn:R1; cbn [rbind].
  - destruct (read_atomic_symbols s1) as [[symbols s2]|e] eqn:R2.
    + assert (E1 : s1 = after_lines 5 c) by (apply read_lattice_ok in R1; destruct R1 as (? & ? & R1); tauto).
      assert (E2 : s2 = after_lines 2 s1).
      { clear -R2. unfold read_atomic_symbols in R2. destruct (readline s1) as [l1 t1] eqn:L1. destruct (split l1); [discriminate|]. destruct (find _ _); [discriminate|].
        destruct (readline t1) as [l2 t2] eqn:L2. destruct (negb _); [discriminate|]. destruct (ints _); [|discriminate]. injection R2 as _ <-.
        cbn [after_lines]. pose proof (snd_readline s1) as X1. pose proof (snd_readline t1) as X2. rewrite L1 in X1. rewrite L2 in X2. cbn in X1, X2. congruence. }
      right. exists lat, s1, symbols. split; [reflexivity|]. rewrite R2, E2, E1, after_after, nl_few by (cbn; lia). reflexivity.
    + left. apply read_symbols_err in R2 as (m & ->). eauto.
  - left. apply read_lattice_err in R1 as (m & ->). eauto.
Qed.

(** * Entries *)
Lemma entries_app a b : entries (a ++ b) = (entries a ++ entries b)%list.
Proof. apply flat_map_app. Qed.
Lemma cut_rows_entries fl vs got : Forall in_cell (entries vs) -> cut_rows_of fl vs got -> reread_but_last fl (entries vs) (entries got).
Proof.
  intros C (vs0 & v & w & w2 & z & -> & W & B & F & ->). rewrite entries_app in C. apply Forall_app in C as [_ C]. cbn in C.
  exists (entries vs0 ++ [nx v; ny v])%list, (nz v), (entries (map (reread3_f fl) vs0) ++ [reread_f fl (nx v); reread_f fl (ny v)])%list, z.
  rewrite !entries_app. split; [cbn; rewrite <- app_assoc; reflexivity|]. split; [cbn; rewrite <- app_assoc; reflexivity|]. split.
  - apply Forall2_app; [apply reread_entries|]. repeat constructor; apply reread_f_ok.
  - apply (float_cut fl _ w w2); auto. inversion C as [|? ? _ C1]. inversion C1 as [|? ? _ C2]. inversion C2. auto.
Qed.
Lemma no_cr_left a b : no_cr (a ++ b) -> no_cr a.
Proof. intros H I. apply H, in_or_app. auto. Qed.

(** A coordinate-format line with nothing after it *)
Lemma label_only E lat n c : n <> 0%nat -> ~ In 10 (68 :: c) ->
  read_positions_from E lat n (68 :: c) = Err (InvalidFileException (txt "positions could not be parsed: " ++ [])).
Proof.
  intros N H. unfold read_positions_from, read_mode. rewrite readline_no_nl by auto. change (is_space 68) with false. change (lower 68) with 100.
  cbn [N.eqb Pos.eqb rbind]. change (lower 68) with 100. cbn [N.eqb Pos.eqb rbind]. destruct n; [congruence|]. reflexivity.
Qed.

Lemma f_cut_structure E lattice numbers positions label pieces c :
  e_fl E 1%R = Fin 1 -> narr_wf lattice -> narr_wf positions ->
  structure_pieces E lattice numbers positions label = Ok pieces -> prefix_of c (concat pieces) ->
  (exists m, read_structure E c = Err (InvalidFileException m)) \/
  exists lat pos,
    read_structure E c = Ok (lat, numbers, pos) /\
    List.length lat = 3%nat /\ Forall2 (reread (e_fl E)) (na_data lattice) (entries lat) /\ List.length pos = List.length numbers /\
    ((c = concat pieces /\ Forall2 (reread (e_fl E)) (na_data positions) (entries pos)) \/
     (~ at_line_end c /\ reread_but_last (e_fl E) (na_data positions) (entries pos))).
Proof.
  intros F WL WP H (d & Hd).
  pose proof (proj1 (f_C46_success E lattice numbers positions label) (ex_intro _ _ H)) as ((SL & K & SP & IC) & NE & _).
  unfold narr_wf in *. rewrite SL in WL. rewrite SP in WP. cbn [prod_list fold_right] in WL, WP.
  assert (WL' : List.length (na_data lattice) = (3 * 3)%nat) by (unfold prod_list in WL; simpl in WL; lia).
  assert (WP' : List.length (na_data positions) = (List.length numbers * 3)%nat) by (unfold prod_list in WP; simpl in WP; lia).
  destruct (rows_n3_length _ _ WL') as [L1 L2]. destruct (rows_n3_length _ _ WP') as [P1 P2].
  destruct (get_symbols_cases numbers K NE) as [(u & ks & G & X & ND & KU & NU & LU & _)|(G & _)].
  2: { unfold structure_pieces in H. rewrite G in H. destruct (verify_structure _ _ _); discriminate. }
  unfold structure_pieces in H. destruct (verify_structure lattice numbers positions) as [[]|]; [|discriminate]. rewrite G in H. cbn [rbind] in H.
  apply (f_equal (fun r => match r with Ok x => concat x | Err _ => [] end)) in H.
  set (rl := rows_n3 (na_data lattice)) in *. set (rp := rows_n3 (na_data positions)) in *.
  set (hd := concat (header E label (lattice_str rl) (symbols_text u ks))) in *.
  assert (T : concat pieces = (hd ++ (((68 :: txt "irect") ++ [10]) ++ positions_str rp))%list).
  { rewrite <- H, concat_app. unfold hd. f_equal. cbn [concat]. rewrite app_nil_r. reflexivity. }
  assert (U : universal c = c).
  { apply universal_id. apply (no_cr_left c d). fold (no_cr (c ++ d)). rewrite <- Hd, T. apply no_cr_app; [apply no_cr_header; auto|]. apply no_cr_app; [vm_compute; intuition discriminate|apply no_cr_positions]. }
  unfold read_structure. rewrite U. clear U H. rewrite T in Hd.
  assert (LR : List.length rp = List.length (expand u ks)) by (rewrite <- X; exact P1).
  apply prefix_cases in Hd as [(c' & -> & Hd)|(d' & D & Hd & _)].
  - destruct (read_header E label rl u ks c' F L1 KU NU LU) as (s1 & R1 & R2). fold hd in R1.
    rewrite R1. cbn [rbind]. rewrite R2. cbn [rbind]. rewrite map_length, <- LR.
    assert (Fail : forall m, read_positions_from E (map (reread3_f (e_fl E)) rl) (List.length rp) c' = Err (InvalidFileException m) ->
      exists m0, (let* (positions0, _) := read_positions_from E (map (reread3_f (e_fl E)) rl) (List.length rp) c' in
        Ok (map (reread3_f (e_fl E)) rl, numbers_of (map sym_text (expand u ks)), positions0)) = Err (InvalidFileException m0)) by (intros m ->; cbn; eauto).
    assert (Good : forall got r, read_positions_from E (map (reread3_f (e_fl E)) rl) (List.length rp) c' = Ok (got, r) -> List.length got = List.length numbers ->
      (hd ++ c' = concat pieces /\ Forall2 (reread (e_fl E)) (na_data positions) (entries got))%list \/ (~ at_line_end (hd ++ c') /\ reread_but_last (e_fl E) (na_data positions) (entries got)) ->
      exists lat pos, (let* (positions0, _) := read_positions_from E (map (reread3_f (e_fl E)) rl) (List.length rp) c' in
        Ok (map (reread3_f (e_fl E)) rl, numbers_of (map sym_text (expand u ks)), positions0)) = Ok (lat, numbers, pos) /\
        List.length lat = 3%nat /\ Forall2 (reread (e_fl E)) (na_data lattice) (entries lat) /\ List.length pos = List.length numbers /\
        ((hd ++ c' = concat pieces /\ Forall2 (reread (e_fl E)) (na_data positions) (entries pos))%list \/ (~ at_line_end (hd ++ c') /\ reread_but_last (e_fl E) (na_data positions) (entries pos)))).
    { intros got r -> LG V. exists (map (reread3_f (e_fl E)) rl), got. cbn [rbind]. rewrite <- X, numbers_sym, map_length by auto.
      split; [reflexivity|]. split; [exact L1|]. split; [rewrite <- L2 at 1; apply reread_entries|]. auto. }
    destruct c' as [|x0 c'].
    { left. eapply Fail. reflexivity. }
    apply prefix_cases in Hd as [(c2 & Ec & Hd)|(d' & D & Hd & _)].
    + rewrite Ec in *. clear Ec.
      assert (RM : read_mode (((68 :: txt "irect") ++ [10]) ++ c2) = Ok (false, c2)) by reflexivity.
      destruct d as [|y d].
      * rewrite app_nil_r in Hd. subst c2. right. eapply Good.
        -- rewrite <- (app_nil_r (positions_str rp)) at 1. apply read_frame. vm_compute. intuition discriminate.
        -- rewrite map_length, P1. reflexivity.
        -- left. split; [auto|]. rewrite <- P2 at 1. apply reread_entries.
      * destruct (cut_read_rows E "positions could not be parsed: " (txt "  ") rp ltac:(repeat constructor) c2 (y :: d) Hd ltac:(discriminate)) as [(l & R & M)|(got & R & CR & T')].
        -- left. eapply Fail. unfold read_positions_from. rewrite RM. cbn [rbind]. rewrite R. reflexivity.
        -- right. eapply Good.
           ++ unfold read_positions_from. rewrite RM. cbn [rbind]. rewrite R. reflexivity.
           ++ destruct CR as (vs0 & v & w & w2 & z & A & _ & _ & _ & ->). rewrite app_length, map_length. rewrite <- P1, A, app_length. reflexivity.
           ++ right. split.
              ** intros (t & Et). destruct c2 as [|y1 c2]; [destruct rp; [|discriminate]; destruct CR as ([|] & ? & ? & ? & ? & A & _); discriminate|].
                 destruct (exists_last (l := y1 :: c2)) as (u1 & y2 & Eu); [discriminate|]. rewrite Eu, !app_assoc in Et. apply app_inj_tail in Et as [_ ->]. apply (T' u1). auto.
              ** rewrite <- P2. apply cut_rows_entries; auto. rewrite P2. exact IC.
    + left. assert (NC : ~ In 10 (x0 :: c')).
      { apply (strict_no_nl (68 :: txt "irect") _ d'); auto. vm_compute. intuition discriminate. }
      injection Hd as <- _. eapply Fail. apply label_only; auto. rewrite P1. destruct numbers; [congruence|discriminate].
  - destruct (read_short E c (cut_header E label rl u ks c d' KU L1 Hd D)) as [(m & R)|(lat & s1 & symbols & R1 & R2)].
    + left. destruct (read_lattice E c) as [[lat s1]|e]; cbn [rbind] in *; [|exists m; congruence]. rewrite R. cbn. eauto.
    + left. rewrite R1. cbn [rbind]. rewrite R2. cbn. eauto.
Qed.

(** * Trajectories *)
Lemma read_configs_nil E fuel lat n : read_configs E (S fuel) lat n [] = Ok [].
Proof. reflexivity. Qed.
Lemma end_right (a c : text) : c <> [] -> (forall t, c <> (t ++ [10])%list) -> forall t, (a ++ c <> t ++ [10])%list.
Proof. intros N H t Et. destruct (exists_last N) as (u & x & ->). rewrite app_assoc in Et. apply app_inj_tail in Et as [_ ->]. apply (H u). auto. Qed.
Definition cut_frames (fl : R -> num) (fs ps : list (list n3)) : Prop :=
  exists fs0 f got, fs = (fs0 ++ [f])%list /\ cut_rows_of fl f got /\ ps = (map (map (reread3_f fl)) fs0 ++ [got])%list.
Lemma cut_configs E lat n : n <> 0%nat -> forall fs i c d fuel, (frames_text i fs = c ++ d)%list -> Forall (fun f => List.length f = n) fs ->
  (List.length c < fuel)%nat ->
  (exists m, read_configs E fuel lat n c = Err (InvalidFileException m)) \/
  exists ps, read_configs E fuel lat n c = Ok ps /\ (List.length ps <= List.length fs)%nat /\
    (ps = map (map (reread3_f (e_fl E))) (firstn (List.length ps) fs) \/
     (cut_frames (e_fl E) (firstn (List.length ps) fs) ps /\ c <> [] /\ forall t, c <> (t ++ [10])%list)).
Proof.
  intros N. induction fs as [|f fs IH]; intros i c d fuel H FL LT.
  { destruct c; [|discriminate]. destruct fuel; [cbn in LT; lia|]. right. exists []. split; [reflexivity|]. split; [cbn; lia|]. left. reflexivity. }
  destruct fuel as [|fuel]; [lia|]. destruct c as [|x c].
  { right. exists []. split; [reflexivity|]. split; [cbn; lia|]. left. reflexivity. }
  inversion FL as [|? ? LF FL']; subst. unfold frames_text in H. cbn [config_pieces concat] in H. fold (frames_text (S i) fs) in H.
  destruct (config_label_eq i) as (l & El & [S1 S2]). rewrite El in H.
  apply prefix_cases in H as [(c1 & Ec & H)|(d' & D & H & _)].
  - rewrite Ec in *. clear Ec x c.
    assert (RM : forall s, read_mode (((68 :: l) ++ [10]) ++ s) = Ok (false, s)) by (intros s; rewrite <- app_assoc; apply read_mode_direct; auto).
    apply prefix_cases in H as [(c2 & -> & H)|(d' & D & H & _)].
    + cbn [read_configs]. rewrite read_frame by auto.
      destruct (IH (S i) c2 d fuel H FL') as [(m & R)|(ps & R & LE & V)].
      { rewrite !app_length in LT. cbn in LT. lia. }
      * left. exists m. rewrite R. reflexivity.
      * right. exists (map (reread3_f (e_fl E)) f :: ps). rewrite R. split; [reflexivity|]. cbn [List.length firstn map]. split; [lia|].
        destruct V as [V|((fs0 & f1 & got & A & B & C) & Q & T)].
        -- left. rewrite V at 1. reflexivity.
        -- right. split.
           ++ exists (f :: fs0), f1, got. rewrite A, C. auto.
           ++ split; [discriminate|]. rewrite app_assoc. apply end_right; auto.
    + cbn [read_configs]. unfold read_positions_from. rewrite RM. cbn [rbind].
      destruct (cut_read_rows E "positions could not be parsed: " (txt "  ") f ltac:(repeat constructor) c1 d' H D) as [(m & R & M)|(got & R & CR & T')].
      * left. rewrite R. cbn [rbind]. rewrite contains_pos, no_m_stop by auto. eauto.
      * right. exists [got]. rewrite R. cbn [rbind]. destruct fuel; [rewrite !app_length in LT; cbn in LT; lia|]. rewrite read_configs_nil.
        split; [reflexivity|]. cbn [List.length firstn]. split; [lia|]. right. split.
        -- exists [], f, got. auto.
        -- split; [discriminate|]. apply end_right; auto. intros ->. destruct f as [|v f]; [cbn in N; congruence|].
           cbn [List.length read_rows] in R. rewrite read_row_nil in R. discriminate.
  - left. assert (NC : ~ In 10 (x :: c)).
    { apply (strict_no_nl (68 :: l) _ d'); auto. split; intros [I|I]; try discriminate; auto. }
    injection H as <- _. cbn [read_configs]. rewrite label_only by auto. rewrite contains_pos. cbn. eauto.
Qed.
Lemma firstn_entries n fs k : Forall (fun f => List.length f = n) fs -> (k <= List.length fs)%nat ->
  flat_map entries (firstn k fs) = firstn (k * (n * 3)) (flat_map entries fs).
Proof.
  revert k. induction fs as [|f fs IH]; intros k H L; [destruct k; [reflexivity|cbn in L; lia]|].
  destruct k; [reflexivity|]. inversion H; subst. cbn [firstn flat_map Nat.mul]. cbn in L.
  assert (LE : List.length (entries f) = (List.length f * 3)%nat) by (clear; induction f; cbn; auto).
  rewrite firstn_app, LE, (firstn_all2 (entries f)) by lia. f_equal. rewrite IH by (auto; lia). f_equal. lia.
Qed.

Lemma frames_prefix k : forall fs i, exists d, frames_text i fs = (frames_text i (firstn k fs) ++ d)%list.
Proof.
  induction k as [|k IH]; intros fs i; [exists (frames_text i fs); reflexivity|]. destruct fs as [|f fs]; [exists []; reflexivity|].
  destruct (IH fs (S i)) as (d & Ed). exists d. unfold frames_text in *. cbn [firstn config_pieces concat]. rewrite Ed, <- !app_assoc. reflexivity.
Qed.

Lemma f_cut_trajectory E lattice numbers positions label pieces c s :
  e_fl E 1%R = Fin 1 -> narr_wf lattice -> narr_wf positions -> na_shape positions = [s; List.length numbers; 3%nat] ->
  trajectory_pieces E lattice numbers positions label = Ok pieces -> prefix_of c (concat pieces) ->
  (exists m, read_positions_ts E c = Err (InvalidFileException m)) \/
  exists ps,
    read_positions_ts E c = Ok ps /\ (List.length ps <= s)%nat /\ Forall (fun p => List.length p = List.length numbers) ps /\
    let written := firstn (List.length ps * (List.length numbers * 3)) (na_data positions) in
    (Forall2 (reread (e_fl E)) written (flat_map entries ps) \/
     (~ at_line_end c /\ reread_but_last (e_fl E) written (flat_map entries ps))).
Proof.
  intros F WL WP SP H (d & Hd).
  pose proof (proj1 (f_C52_success E lattice numbers positions label) (ex_intro _ _ H)) as ((SL & K & _ & IC) & NE & _).
  unfold narr_wf in *. rewrite SL in WL. rewrite SP in WP.
  assert (WL' : List.length (na_data lattice) = (3 * 3)%nat) by (unfold prod_list in WL; simpl in WL; lia).
  assert (WP' : List.length (na_data positions) = ((s * List.length numbers) * 3)%nat) by (unfold prod_list in WP; simpl in WP; lia).
  destruct (rows_n3_length _ _ WL') as [L1 L2]. destruct (rows_n3_length _ _ WP') as [P1 P2].
  destruct (get_symbols_cases numbers K NE) as [(u & ks & G & X & ND & KU & NU & LU & _)|(G & _)].
  2: { unfold trajectory_pieces in H. rewrite G in H. destruct (verify_trajectory _ _ _); discriminate. }
  unfold trajectory_pieces in H. destruct (verify_trajectory lattice numbers positions) as [[]|]; [|discriminate]. rewrite G in H. cbn [rbind] in H.
  apply (f_equal (fun r => match r with Ok x => concat x | Err _ => [] end)) in H.
  set (rl := rows_n3 (na_data lattice)) in *.
  assert (FR : frames_n3 positions = chunks (List.length numbers) s (rows_n3 (na_data positions))) by (unfold frames_n3; rewrite SP; reflexivity).
  destruct (chunks_ok (List.length numbers) s (rows_n3 (na_data positions)) P1) as (C1 & C2 & C3). rewrite <- FR in *.
  set (fs := frames_n3 positions) in *.
  set (hd := concat (header E label (lattice_str rl) (symbols_text u ks))) in *.
  assert (T : concat pieces = (hd ++ frames_text 0 fs)%list) by (rewrite <- H, concat_app; reflexivity).
  assert (U : universal c = c).
  { apply universal_id. apply (no_cr_left c d). rewrite <- Hd, T. apply no_cr_app; [apply no_cr_header; auto|apply no_cr_frames]. }
  unfold read_positions_ts. rewrite U. clear U H. rewrite T in Hd.
  apply prefix_cases in Hd as [(c' & -> & Hd)|(d' & D & Hd & _)].
  - destruct (read_header E label rl u ks c' F L1 KU NU LU) as (s1 & R1 & R2). fold hd in R1.
    rewrite R1. cbn [rbind]. rewrite R2. cbn [rbind]. rewrite map_length, <- X.
    destruct (cut_configs E (map (reread3_f (e_fl E)) rl) (List.length numbers) ltac:(destruct numbers; [congruence|discriminate]) fs 0%nat c' d (S (List.length c')) Hd C2 ltac:(lia))
      as [R|(ps & R & LE & V)]; [auto|]. right. exists ps. split; [exact R|]. rewrite C1 in LE. split; [exact LE|].
    assert (EW : firstn (List.length ps * (List.length numbers * 3)) (na_data positions) = flat_map entries (firstn (List.length ps) fs)).
    { rewrite (firstn_entries (List.length numbers)) by (auto; lia). rewrite entries_concat, C3, P2. reflexivity. }
    assert (C2' : Forall (fun f => List.length f = List.length numbers) (firstn (List.length ps) fs)).
    { rewrite <- (firstn_skipn (List.length ps) fs) in C2. apply Forall_app in C2. tauto. }
    assert (IC' : Forall in_cell (flat_map entries (firstn (List.length ps) fs))).
    { rewrite <- EW. rewrite <- (firstn_skipn (List.length ps * (List.length numbers * 3)) (na_data positions)) in IC. apply Forall_app in IC. tauto. }
    cbv zeta. rewrite EW. destruct V as [V|((fs0 & f & got & A & B & Eps) & Q & T')].
    + split.
      * rewrite V. apply Forall_forall. intros p I. apply in_map_iff in I as (f & <- & I). rewrite map_length. rewrite Forall_forall in C2'. auto.
      * left. rewrite V at 2. rewrite !entries_concat, <- concat_map. apply reread_entries.
    + rewrite A in *. rewrite Eps. apply Forall_app in C2' as [C4 C5]. inversion C5 as [|? ? C6 _]; subst. split.
      * apply Forall_app. split.
        -- apply Forall_forall. intros p I. apply in_map_iff in I as (f' & <- & I). rewrite map_length. rewrite Forall_forall in C4. auto.
        -- constructor; [|constructor]. destruct B as (vs0 & v & w & w2 & z & -> & _ & _ & _ & ->). rewrite <- C6, !app_length, map_length. reflexivity.
      * right. split; [intros (t & Et); revert Et; apply end_right; auto|].
        rewrite !flat_map_app in *. apply Forall_app in IC' as [I1 I2]. cbn [flat_map] in *. rewrite !app_nil_r in *.
        destruct (cut_rows_entries (e_fl E) f got I2 B) as (a & x & m & y & -> & -> & Q1 & Q2).
        exists (flat_map entries fs0 ++ a)%list, x, (flat_map entries (map (map (reread3_f (e_fl E))) fs0) ++ m)%list, y.
        rewrite !app_assoc. split; [reflexivity|]. split; [reflexivity|]. split; [|exact Q2]. apply Forall2_app; auto.
        rewrite !entries_concat, <- concat_map. apply reread_entries.
  - destruct (read_short E c (cut_header E label rl u ks c d' KU L1 Hd D)) as [(m & R)|(lat & s1 & symbols & R1 & R2)].
    + left. destruct (read_lattice E c) as [[lat s1]|e]; cbn [rbind] in *; [|exists m; congruence]. rewrite R. cbn. eauto.
    + right. exists []. rewrite R1. cbn [rbind]. rewrite R2. split; [reflexivity|]. split; [cbn; lia|]. split; [constructor|]. cbn. left. constructor.
Qed.

Lemma f_cut_between E lattice numbers positions label pieces s k :
  e_fl E 1%R = Fin 1 -> narr_wf lattice -> narr_wf positions -> na_shape positions = [s; List.length numbers; 3%nat] ->
  trajectory_pieces E lattice numbers positions label = Ok pieces -> (k <= s)%nat ->
  exists c ps, prefix_of c (concat pieces) /\ read_positions_ts E c = Ok ps /\ List.length ps = k /\
    Forall2 (reread (e_fl E)) (firstn (k * (List.length numbers * 3)) (na_data positions)) (flat_map entries ps).
Proof.
  intros F WL WP SP H LK.
  pose proof (proj1 (f_C52_success E lattice numbers positions label) (ex_intro _ _ H)) as ((SL & K & _ & IC) & NE & _).
  unfold narr_wf in *. rewrite SL in WL. rewrite SP in WP.
  assert (WL' : List.length (na_data lattice) = (3 * 3)%nat) by (unfold prod_list in WL; simpl in WL; lia).
  assert (WP' : List.length (na_data positions) = ((s * List.length numbers) * 3)%nat) by (unfold prod_list in WP; simpl in WP; lia).
  destruct (rows_n3_length _ _ WL') as [L1 L2]. destruct (rows_n3_length _ _ WP') as [P1 P2].
  destruct (get_symbols_cases numbers K NE) as [(u & ks & G & X & ND & KU & NU & LU & _)|(G & _)].
  2: { unfold trajectory_pieces in H. rewrite G in H. destruct (verify_trajectory _ _ _); discriminate. }
  unfold trajectory_pieces in H. destruct (verify_trajectory lattice numbers positions) as [[]|]; [|discriminate]. rewrite G in H. cbn [rbind] in H.
  apply (f_equal (fun r => match r with Ok x => concat x | Err _ => [] end)) in H.
  set (rl := rows_n3 (na_data lattice)) in *.
  assert (FR : frames_n3 positions = chunks (List.length numbers) s (rows_n3 (na_data positions))) by (unfold frames_n3; rewrite SP; reflexivity).
  destruct (chunks_ok (List.length numbers) s (rows_n3 (na_data positions)) P1) as (C1 & C2 & C3). rewrite <- FR in *.
  set (fs := frames_n3 positions) in *.
  set (hd := concat (header E label (lattice_str rl) (symbols_text u ks))) in *.
  assert (T : concat pieces = (hd ++ frames_text 0 fs)%list) by (rewrite <- H, concat_app; reflexivity).
  assert (C2' : Forall (fun f => List.length f = List.length numbers) (firstn k fs)).
  { rewrite <- (firstn_skipn k fs) in C2. apply Forall_app in C2. tauto. }
  exists (hd ++ frames_text 0 (firstn k fs))%list, (map (map (reread3_f (e_fl E))) (firstn k fs)). split; [|split; [|split]].
  - rewrite T. destruct (frames_prefix k fs 0%nat) as (d & ->). exists d. apply app_assoc.
  - unfold read_positions_ts. rewrite universal_id by (apply no_cr_app; [apply no_cr_header; auto|apply no_cr_frames]).
    destruct (read_header E label rl u ks (frames_text 0 (firstn k fs)) F L1 KU NU LU) as (s1 & R1 & R2). fold hd in R1.
    rewrite R1. cbn [rbind]. rewrite R2. cbn [rbind]. rewrite map_length, <- X. apply read_configs_ok; [lia|].
    exists []. split; [apply frames_configs; auto|]. left. left. auto.
  - rewrite map_length, firstn_length, C1. lia.
  - rewrite <- P2, <- C3, <- entries_concat, <- firstn_entries by (auto; lia). rewrite !entries_concat, <- concat_map. apply reread_entries.
Qed.
