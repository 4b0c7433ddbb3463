(** An interruption that goes unnoticed, and concrete cases. *)
From Coq Require Import String Ascii ZArith NArith Reals Lra Lia Psatz Bool Arith List.
From Verif Require Import Base LinAlg Constants M_Validate M_Spectrum M_Symmetry M_Text M_Poscar M_Files S_Spectrum S_Text S_Files S_Cut
  P_Text P_Poscar P_Poscar2 P_Poscar3 P_Poscar4 P_Files P_Convolve2 P_Cut P_Cut2 P_Examples5.
Import ListNotations.
Local Open Scope N_scope.

Lemma small_fmt r : (0 <= r <= 1 / 2)%R -> exists rest, fmt_body (M_Text.Fin r) = (48 :: 46 :: rest)%list.
Proof.
  intros H. rewrite fmt_fin, (proj2 (Rltb_false r 0)) by lra. cbn [app]. unfold fin_digits.
  assert (S : Z.to_N (scaled16 r) < 10 ^ 16).
  { unfold scaled16. rewrite Rabs_right by lra. destruct (rint_spec (r * IZR (10 ^ 16))) as [A _].
    assert (IZR (rint (r * IZR (10 ^ 16))) < IZR (10 ^ 16))%R.
    { assert (B : (2 <= IZR (10 ^ 16))%R) by (apply IZR_le; lia). set (t := IZR (10 ^ 16)) in *. clearbody t.
      assert ((r * t <= 1 / 2 * t)%R) by (apply Rmult_le_compat_r; lra). revert A; unfold Rabs; destruct (Rcase_abs _); intros; lra. }
    apply lt_IZR in H0. lia. }
  rewrite N.div_small by auto. eexists. change (dec_digits 0) with [0]. cbn [map app]. reflexivity.
Qed.
Definition cut_row (i : text) (v : n3) : text :=
  (i ++ fmt_f16 (nx v) ++ txt "   " ++ fmt_f16 (ny v) ++ txt "   " ++ repeat 32 (9 - List.length (fmt_body (nz v))) ++ [48])%list.
Lemma cut_row_prefix i v r : nz v = M_Text.Fin r -> (0 <= r <= 1 / 2)%R -> exists d, row_str i v = (cut_row i v ++ 46 :: d)%list.
Proof.
  intros Ez Hr. destruct (small_fmt r Hr) as (rest & Er). exists (rest ++ [NL])%list.
  unfold row_str, cut_row. unfold fmt_f16 at 3. unfold pad_left. rewrite Ez, Er. rewrite <- !app_assoc. cbn [app]. reflexivity.
Qed.
Lemma cut_row_read E msg i v : Forall (eq 32) i ->
  ~ In 10 (cut_row i v) -> read_row E msg (cut_row i v) = Ok (mkN3 (reread_f (e_fl E) (nx v)) (reread_f (e_fl E) (ny v)) (e_fl E 0%R), []).
Proof.
  intros Hi N. unfold read_row. rewrite readline_no_nl by auto. unfold cut_row, fmt_f16, pad_left.
  change (txt "   ") with [32; 32; 32]. rewrite <- !app_assoc. cbn [app].
  pose proof (fmt_nospace (nx v)) as [A1 A2]. pose proof (fmt_nospace (ny v)) as [B1 B2].
  rewrite split_spaces by (apply spaces_32; auto). rewrite (split_padded _ (fmt_body (nx v))) by (auto using spaces_repeat).
  rewrite !split_space by reflexivity. rewrite (split_padded _ (fmt_body (ny v))) by (auto using spaces_repeat).
  rewrite !split_space by reflexivity. rewrite split_spaces by apply spaces_repeat.
  change (split [48]) with [[48]]. cbn [firstn floats]. rewrite !float_fmt.
  pose proof (float_digit (e_fl E) 0 ltac:(unfold digit; lia)) as F. change [digit_char 0] with [48] in F. rewrite F.
  replace (IZR (Z.of_N 0) / 10 ^ 0)%R with 0%R by (cbn; lra). reflexivity.
Qed.

Lemma read_rows_cut E msg i vs v : Forall (eq 32) i -> ~ In 10 (cut_row i v) ->
  read_rows E msg (List.length (vs ++ [v])) (flat_map (row_str i) vs ++ cut_row i v) =
  Ok (map (reread3_f (e_fl E)) vs ++ [mkN3 (reread_f (e_fl E) (nx v)) (reread_f (e_fl E) (ny v)) (e_fl E 0%R)], [])%list.
Proof.
  intros Hi N. induction vs as [|w vs IH]; cbn [app List.length read_rows flat_map map].
  - rewrite cut_row_read by auto. reflexivity.
  - rewrite <- app_assoc, read_row_str by auto. cbn [rbind]. rewrite IH. reflexivity.
Qed.
Lemma entries_last rp l x : entries rp = (l ++ [x])%list -> exists vs v, rp = (vs ++ [v])%list /\ nz v = x /\ l = (entries vs ++ [nx v; ny v])%list.
Proof.
  intros H. assert (D : rp = [] \/ rp <> []) by (destruct rp; [left|right]; [reflexivity|discriminate]). destruct D as [->|N].
  - destruct l; discriminate.
  - destruct (exists_last N) as (vs & v & ->). exists vs, v. split; [reflexivity|]. rewrite entries_app in H. cbn in H.
    change [nx v; ny v; nz v] with ([nx v; ny v] ++ [nz v])%list in H. rewrite app_assoc in H. apply app_inj_tail in H as [<- ->]. auto.
Qed.

Lemma f_cut_undetected E lattice numbers positions label pieces l r :
  e_fl E 1%R = M_Text.Fin 1 -> narr_wf lattice -> narr_wf positions ->
  structure_pieces E lattice numbers positions label = Ok pieces ->
  na_data positions = (l ++ [M_Text.Fin r])%list -> (0 <= r <= 1 / 2)%R ->
  exists c lat pos m, prefix_of c (concat pieces) /\ c <> concat pieces /\
    read_structure E c = Ok (lat, numbers, pos) /\
    Forall2 (reread (e_fl E)) (na_data lattice) (entries lat) /\
    entries pos = (m ++ [e_fl E 0%R])%list /\ Forall2 (reread (e_fl E)) l m.
Proof.
  intros F WL WP H EP Hr.
  pose proof (proj1 (f_C46_success E lattice numbers positions label) (ex_intro _ _ H)) as ((SL & K & SP & IC) & NE & _).
  unfold narr_wf in *. rewrite SL in WL. rewrite SP in WP. cbn [prod_list fold_right] in WL, WP.
  assert (WL' : List.length (na_data lattice) = (3 * 3)%nat) by (unfold prod_list in WL; simpl in WL; lia).
  assert (WP' : List.length (na_data positions) = (List.length numbers * 3)%nat) by (unfold prod_list in WP; simpl in WP; lia).
  destruct (rows_n3_length _ _ WL') as [L1 L2]. destruct (rows_n3_length _ _ WP') as [P1 P2].
  destruct (get_symbols_cases numbers K NE) as [(u & ks & G & X & ND & KU & NU & LU & _)|(G & _)].
  2: { unfold structure_pieces in H. rewrite G in H. destruct (verify_structure _ _ _); discriminate. }
  unfold structure_pieces in H. destruct (verify_structure lattice numbers positions) as [[]|]; [|discriminate]. rewrite G in H. cbn [rbind] in H.
  apply (f_equal (fun r => match r with Ok x => concat x | Err _ => [] end)) in H.
  set (rl := rows_n3 (na_data lattice)) in *. set (rp := rows_n3 (na_data positions)) in *.
  set (hd := concat (header E label (lattice_str rl) (symbols_text u ks))) in *.
  assert (T : concat pieces = (hd ++ (((68 :: txt "irect") ++ [10]) ++ positions_str rp))%list).
  { rewrite <- H, concat_app. unfold hd. f_equal. cbn [concat]. rewrite app_nil_r. reflexivity. }
  rewrite EP in P2. destruct (entries_last _ _ _ P2) as (vs & v & Erp & Ev & El).
  destruct (cut_row_prefix (txt "  ") v r Ev Hr) as (d & Ed).
  set (c' := (((68 :: txt "irect") ++ [10]) ++ positions_str vs ++ cut_row (txt "  ") v)%list).
  assert (T2 : concat pieces = ((hd ++ c') ++ 46 :: d)%list).
  { rewrite T, Erp. unfold c', positions_str. rewrite flat_map_app. cbn [flat_map]. rewrite Ed, app_nil_r. rewrite <- !app_assoc. reflexivity. }
  assert (NC : ~ In 10 (cut_row (txt "  ") v)).
  { destruct (row_str_line (txt "  ") v ltac:(repeat constructor)) as (l0 & El0 & S0). apply (strict_no_nl l0 _ (46 :: d) S0); [congruence|discriminate]. }
  exists (hd ++ c')%list, (map (reread3_f (e_fl E)) rl), (map (reread3_f (e_fl E)) vs ++ [mkN3 (reread_f (e_fl E) (nx v)) (reread_f (e_fl E) (ny v)) (e_fl E 0%R)])%list,
    (entries (map (reread3_f (e_fl E)) vs) ++ [reread_f (e_fl E) (nx v); reread_f (e_fl E) (ny v)])%list.
  split; [exists (46 :: d); exact T2|]. split; [|split; [|split; [|split]]].
  - intros Q. rewrite <- Q in T2. rewrite <- (app_nil_r (hd ++ c')) in T2 at 1. apply app_inv_head in T2. discriminate.
  - assert (U : universal (hd ++ c') = (hd ++ c')%list).
    { apply universal_id. apply (no_cr_left (hd ++ c') (46 :: d)). rewrite <- T2, T. apply no_cr_app; [apply no_cr_header; auto|]. apply no_cr_app; [vm_compute; intuition discriminate|apply no_cr_positions]. }
    unfold read_structure. rewrite U. destruct (read_header E label rl u ks c' F L1 KU NU LU) as (s1 & R1 & R2). fold hd in R1.
    rewrite R1. cbn [rbind]. rewrite R2. cbn [rbind]. rewrite map_length, <- X, numbers_sym by auto. rewrite <- P1, Erp.
    unfold read_positions_from, c'. change (read_mode (((68 :: txt "irect") ++ [10]) ++ positions_str vs ++ cut_row (txt "  ") v)) with (Ok (false, positions_str vs ++ cut_row (txt "  ") v))%list.
    cbn [rbind]. rewrite (read_rows_cut E _ (txt "  ") vs v) by (auto; repeat constructor). reflexivity.
  - rewrite <- L2 at 1. apply reread_entries.
  - rewrite entries_app. cbn. rewrite <- app_assoc. reflexivity.
  - rewrite El. apply Forall2_app; [apply reread_entries|]. repeat constructor; apply reread_f_ok.
Qed.

Lemma ex_cut : exists pieces l r, structure_pieces exE exl exn exp (txt "label") = Ok pieces /\ na_data exp = (l ++ [M_Text.Fin r])%list /\ (0 < r <= 1 / 2)%R.
Proof.
  destruct ex_C46 as (_ & _ & _ & _ & _ & _ & pieces & Hs). exists pieces, (removelast (na_data exp)), (/ 4)%R. split; [exact Hs|]. split; [reflexivity|lra].
Qed.

(** * In terms of calls that were interrupted *)
Lemma interrupted_pieces f p ow r g : write_run f p ow r Interrupted g -> exists ts, r = Ok ts.
Proof. intros H. inversion H; subst; eauto. Qed.
Lemma f_interrupted_structure E f lattice numbers positions p overwrite label g c :
  e_fl E 1%R = M_Text.Fin 1 -> narr_wf lattice -> narr_wf positions ->
  write_structure E f lattice numbers positions p overwrite label Interrupted g -> g p = Present c ->
  (exists m, read_structure E c = Err (InvalidFileException m)) \/
  exists lat pos,
    read_structure E c = Ok (lat, numbers, pos) /\
    List.length lat = 3%nat /\ Forall2 (reread (e_fl E)) (na_data lattice) (entries lat) /\ List.length pos = List.length numbers /\
    (Forall2 (reread (e_fl E)) (na_data positions) (entries pos) \/
     (~ at_line_end c /\ reread_but_last (e_fl E) (na_data positions) (entries pos))).
Proof.
  intros F WL WP H G. unfold write_structure in H. destruct (interrupted_pieces _ _ _ _ _ H) as (ts & Hts). rewrite Hts in H.
  destruct (run_ok _ _ _ _ _ _ H) as (_ & c' & G' & PC). rewrite G in G'. injection G' as <-.
  destruct (f_cut_structure E _ _ _ _ _ _ F WL WP Hts PC) as [B|(lat & pos & A1 & A2 & A3 & A4 & A5)]; [auto|]. right. exists lat, pos. tauto.
Qed.
Lemma f_interrupted_trajectory E f lattice numbers positions p overwrite label g c s :
  e_fl E 1%R = M_Text.Fin 1 -> narr_wf lattice -> narr_wf positions -> na_shape positions = [s; List.length numbers; 3%nat] ->
  write_trajectory E f lattice numbers positions p overwrite label Interrupted g -> g p = Present c ->
  (exists m, read_positions_ts E c = Err (InvalidFileException m)) \/
  exists ps,
    read_positions_ts E c = Ok ps /\ (List.length ps <= s)%nat /\ Forall (fun q => List.length q = List.length numbers) ps /\
    let written := firstn (List.length ps * (List.length numbers * 3)) (na_data positions) in
    (Forall2 (reread (e_fl E)) written (flat_map entries ps) \/
     (~ at_line_end c /\ reread_but_last (e_fl E) written (flat_map entries ps))).
Proof.
  intros F WL WP SP H G. unfold write_trajectory in H. destruct (interrupted_pieces _ _ _ _ _ H) as (ts & Hts). rewrite Hts in H.
  destruct (run_ok _ _ _ _ _ _ H) as (_ & c' & G' & PC). rewrite G in G'. injection G' as <-.
  apply (f_cut_trajectory E lattice numbers positions label ts c s); auto.
Qed.
Lemma f_interrupted_between E f lattice numbers positions p overwrite label s k :
  e_fl E 1%R = M_Text.Fin 1 -> narr_wf lattice -> narr_wf positions -> na_shape positions = [s; List.length numbers; 3%nat] ->
  valid_trajectory lattice numbers positions -> numbers <> [] -> contiguous numbers -> writable f overwrite p -> (k <= s)%nat ->
  exists g c ps, write_trajectory E f lattice numbers positions p overwrite label Interrupted g /\ g p = Present c /\
    read_positions_ts E c = Ok ps /\ List.length ps = k /\
    Forall2 (reread (e_fl E)) (firstn (k * (List.length numbers * 3)) (na_data positions)) (flat_map entries ps).
Proof.
  intros F WL WP SP V NE CO W LK.
  destruct (proj2 (f_C52_success E lattice numbers positions label) (conj V (conj NE CO))) as [ts Hts].
  destruct (f_cut_between E _ _ _ _ _ _ k F WL WP SP Hts LK) as (c & ps & PC & R).
  destruct (run_prefix f p overwrite ts c W PC) as (g & A & B). exists g, c, ps. unfold write_trajectory. rewrite Hts. tauto.
Qed.
Lemma f_interrupted_undetected E f lattice numbers positions p overwrite label l r :
  e_fl E 1%R = M_Text.Fin 1 -> narr_wf lattice -> narr_wf positions ->
  valid_structure lattice numbers positions -> numbers <> [] -> contiguous numbers -> writable f overwrite p ->
  na_data positions = (l ++ [M_Text.Fin r])%list -> (r <= 1 / 2)%R ->
  exists g c lat pos m, write_structure E f lattice numbers positions p overwrite label Interrupted g /\ g p = Present c /\
    read_structure E c = Ok (lat, numbers, pos) /\
    Forall2 (reread (e_fl E)) (na_data lattice) (entries lat) /\
    entries pos = (m ++ [e_fl E 0%R])%list /\ Forall2 (reread (e_fl E)) l m.
Proof.
  intros F WL WP V NE CO W EP Hr.
  destruct (proj2 (f_C46_success E lattice numbers positions label) (conj V (conj NE CO))) as [ts Hts].
  assert (Hr0 : (0 <= r)%R).
  { destruct V as (_ & _ & _ & IC). rewrite EP in IC. apply Forall_app in IC as [_ IC]. inversion IC as [|? ? I1 _]; subst. cbn in I1. lra. }
  destruct (f_cut_undetected E _ _ _ _ _ _ _ F WL WP Hts EP (conj Hr0 Hr)) as (c & lat & pos & m & PC & _ & R).
  destruct (run_prefix f p overwrite ts c W PC) as (g & A & B). exists g, c, lat, pos, m. unfold write_structure. rewrite Hts. tauto.
Qed.
Lemma ex_interrupted : e_fl exE 1%R = M_Text.Fin 1 /\ narr_wf exl /\ narr_wf exp /\ narr_wf ext /\
  na_shape ext = [2; List.length exn; 3]%nat /\
  valid_structure exl exn exp /\ valid_trajectory exl exn ext /\ exn <> [] /\ contiguous exn /\
  writable (fun _ => Absent) false (txt "a") /\
  exists l, na_data exp = (l ++ [M_Text.Fin (/ 4)])%list /\ reread (e_fl exE) (M_Text.Fin (/ 4)) (M_Text.Fin (/ 4)) /\ e_fl exE 0%R <> M_Text.Fin (/ 4).
Proof.
  destruct ex_C46 as (V1 & N & C & _ & W1 & W2 & _). destruct ex_C52 as (V2 & _ & _ & _ & W3 & _).
  split; [reflexivity|]. split; [exact W1|]. split; [exact W2|]. split; [exact W3|]. split; [reflexivity|]. split; [exact V1|]. split; [exact V2|].
  split; [exact N|]. split; [exact C|]. split; [left; reflexivity|]. exists (removelast (na_data exp)). split; [reflexivity|]. split.
  - apply (reread_fin M_Text.Fin (/ 4) (/ 4)). 
    exists (25 * 10 ^ 14)%Z. assert (E : IZR (25 * 10 ^ 14) = (/ 4 * 10 ^ 16)%R).
    { rewrite mult_IZR. change (10 ^ 14)%Z with (10 ^ Z.of_nat 14)%Z. rewrite <- pow_IZR. change 16%nat with (14 + 2)%nat. rewrite pow_add. set (t := (10 ^ 14)%R). clearbody t. cbn [pow]. lra. }
    rewrite E. assert (P : (10 ^ 16 <> 0)%R) by (apply pow_nonzero; lra). set (t := (10 ^ 16)%R) in *. clearbody t. split; [|field; auto].
    unfold nearest_even. rewrite E, Rminus_diag_eq, Rabs_R0 by reflexivity. split; [lra|]. intros Q. lra.
  - intros H. injection H as H. lra.
Qed.
