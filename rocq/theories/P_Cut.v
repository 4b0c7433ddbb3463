(** Reading structure and trajectory files whose writing was interrupted. *)
From Coq Require Import String Ascii ZArith NArith Reals Lra Lia Psatz Bool Arith List.
From Verif Require Import Base LinAlg Constants M_Validate M_Spectrum M_Text M_Poscar M_Files S_Spectrum S_Text S_Files S_Cut
  P_Convolve2 P_Text P_Poscar P_Poscar2 P_Poscar3 P_Poscar4.
Import ListNotations.
Local Open Scope N_scope.

Lemma prefix_cases {A} (c d a b : list A) : (a ++ b = c ++ d)%list ->
  (exists c', c = a ++ c' /\ b = c' ++ d)%list \/ (exists d', d' <> [] /\ a = c ++ d' /\ d = d' ++ b)%list.
Proof.
  revert c. induction a as [|x a IH]; intros c H.
  - left. exists c. auto.
  - destruct c as [|y c].
    + right. exists (x :: a). cbn in H. repeat split; auto. discriminate.
    + cbn in H. injection H as <- H. destruct (IH c H) as [(c' & -> & E)|(d' & N & -> & E)]; [left; exists c'; auto|right; exists d'; auto].
Qed.

(** * Splitting a cut line into words *)
Inductive cutw : list text -> list text -> Prop :=
| cutw_nil l : cutw [] l
| cutw_word w w2 l : w <> [] -> cutw [w] ((w ++ w2)%list :: l)
| cutw_cons w l l' : cutw l l' -> cutw (w :: l) (w :: l').
Lemma cutw_ne w l l' : cutw l l' -> cutw (cons_ne w l) (cons_ne w l').
Proof. intros H. destruct w; cbn; [auto|]. apply cutw_cons. auto. Qed.
Lemma cutw_part a x l : cutw (cons_ne a []) (cons_ne (a ++ x) l).
Proof. destruct a; cbn; [constructor|]. apply (cutw_word (n :: a) x). discriminate. Qed.
Lemma split_go_cut a b : let '(w, ws) := split_go a in let '(w', ws') := split_go (a ++ b) in
  (ws = [] /\ exists x, w' = w ++ x)%list \/ (w' = w /\ cutw ws ws').
Proof.
  induction a as [|c a IH].
  - cbn [split_go app]. destruct (split_go b) as [w' ws']. left. split; auto. exists w'. auto.
  - cbn [split_go app]. destruct (split_go a) as [w ws], (split_go (a ++ b)) as [w' ws']. destruct (is_space c).
    + right. split; auto. destruct IH as [(-> & x & ->)|(-> & H)]; [apply cutw_part|apply cutw_ne; auto].
    + destruct IH as [(-> & x & ->)|(-> & H)]; [left; split; auto; exists x; auto|right; auto].
Qed.
Lemma split_cut a b : cutw (split a) (split (a ++ b)).
Proof.
  unfold split. pose proof (split_go_cut a b) as H. destruct (split_go a) as [w ws], (split_go (a ++ b)) as [w' ws'].
  destruct H as [(-> & x & ->)|(-> & H)]; [apply cutw_part|apply cutw_ne; auto].
Qed.

(** * Cut numbers *)
Lemma firstn_fixed w : forall j n, (j <= w)%nat -> firstn j (fixed w n) = fixed j (n / 10 ^ N.of_nat (w - j)).
Proof.
  induction w as [|w IH]; intros j n H.
  - assert (j = 0%nat) by lia. subst. reflexivity.
  - destruct (Nat.eq_dec j (S w)) as [->|N].
    + rewrite Nat.sub_diag. change (N.of_nat 0) with 0. rewrite N.pow_0_r, N.div_1_r. apply firstn_all2. rewrite fixed_length. lia.
    + cbn [fixed]. rewrite firstn_app, fixed_length. replace (j - w)%nat with 0%nat by lia. rewrite firstn_O, app_nil_r. rewrite IH by lia.
      rewrite N.div_div by (try apply N.pow_nonzero; lia). rewrite <- N.pow_succ_r'. f_equal. f_equal. f_equal. lia.
Qed.
Lemma float_digits fl q ds : digit q -> Forall digit ds ->
  float_of fl (digit_char q :: 46 :: map digit_char ds) = Some (fl (IZR (Z.of_N (digits_value (q :: ds))) / 10 ^ List.length ds)%R).
Proof.
  intros Q D.
  assert (NS : nospace (digit_char q :: 46 :: map digit_char ds)).
  { change (nospace ([digit_char q] ++ 46 :: map digit_char ds)). apply nospace_app; [apply (nospace_chars [q]); auto|]. constructor; [reflexivity|apply nospace_chars; auto]. }
  unfold float_of. rewrite strip_nospace by auto.
  assert (q = 0 \/ q = 1 \/ q = 2 \/ q = 3 \/ q = 4 \/ q = 5 \/ q = 6 \/ q = 7 \/ q = 8 \/ q = 9) as QC by (unfold digit in Q; lia).
  assert (S0 : sign (digit_char q :: 46 :: map digit_char ds) = (false, digit_char q :: 46 :: map digit_char ds)).
  { unfold sign, digit_char. destruct (N.eqb_spec (48 + q) 45); [lia|]. destruct (N.eqb_spec (48 + q) 43); [lia|]. auto. }
  rewrite S0.
  assert (NI : forall x y, In x [105; 110] -> teqb (map lower (digit_char q :: 46 :: map digit_char ds)) (x :: y) = false).
  { intros x y I. apply teqb_false. cbn [map]. intros E. injection E as E _. unfold digit_char, lower in E. rewrite (proj2 (N.leb_gt 65 (48 + q))) in E by (unfold digit in Q; lia).
    cbn [andb] in E. simpl in I. unfold digit in Q. lia. }
  change (txt "inf") with [105; 110; 102]. change (txt "infinity") with (105 :: [110; 102; 105; 110; 105; 116; 121]).
  change (txt "nan") with (110 :: [97; 110]). rewrite !NI by (simpl; auto). cbn [orb].
  change (digit_char q :: 46 :: map digit_char ds) with (map digit_char [q] ++ 46 :: map digit_char ds)%list.
  rewrite break_none.
  2: { apply Forall_app. split; [apply chars_forall; auto|]. constructor; [reflexivity|apply chars_forall; auto]. }
  rewrite break_at by (try apply chars_forall; auto). rewrite opt_digits_chars by auto. rewrite opt_digits_chars by auto.
  cbn [app]. do 2 f_equal. unfold signed. unfold Rdiv. f_equal. rewrite Z.sub_0_l.
  destruct (List.length ds) as [|n]; [cbn; rewrite Rinv_1; reflexivity|].
  cbn [Z.of_nat Z.opp powerRZ]. rewrite SuccNat2Pos.id_succ. reflexivity.
Qed.
Lemma float_digit fl q : digit q -> float_of fl [digit_char q] = Some (fl (IZR (Z.of_N q) / 10 ^ 0)%R).
Proof.
  intros Q. assert (q = 0 \/ q = 1 \/ q = 2 \/ q = 3 \/ q = 4 \/ q = 5 \/ q = 6 \/ q = 7 \/ q = 8 \/ q = 9) as QC by (unfold digit in Q; lia).
  assert (X : forall z, float_of fl [digit_char q] = Some (fl (IZR z * powerRZ 10 0)%R) -> float_of fl [digit_char q] = Some (fl (IZR z / 10 ^ 0)%R)).
  { intros z ->. do 2 f_equal. cbn. field. }
  apply X. repeat (destruct QC as [->|QC]; [reflexivity|]). subst. reflexivity.
Qed.
Lemma cut_value q m j : m < 10 ^ 16 -> (j <= 16)%nat ->
  let k := digits_value (q :: firstn j (fixed 16 m)) in
  k * 10 ^ N.of_nat (16 - j) <= q * 10 ^ 16 + m < (k + 1) * 10 ^ N.of_nat (16 - j).
Proof.
  intros M J k. set (e := 10 ^ N.of_nat (16 - j)). assert (E0 : e <> 0) by (apply N.pow_nonzero; lia).
  assert (K : k = q * 10 ^ N.of_nat j + m / e).
  { unfold k. change (q :: firstn j (fixed 16 m)) with ([q] ++ firstn j (fixed 16 m))%list. rewrite value_app, firstn_fixed, fixed_length, fixed_value by auto. fold e.
    change (digits_value [q]) with q. f_equal. apply N.mod_small. apply N.div_lt_upper_bound; auto. unfold e. rewrite <- N.pow_add_r.
    replace (N.of_nat (16 - j) + N.of_nat j) with 16 by lia. auto. }
  assert (P : 10 ^ 16 = 10 ^ N.of_nat j * e) by (unfold e; rewrite <- N.pow_add_r; f_equal; lia).
  rewrite K, P. pose proof (N.div_mod m e E0) as DM. pose proof (N.mod_lt m e E0) as ML.
  set (d := m / e) in *. set (o := m mod e) in *. set (t := 10 ^ N.of_nat j) in *. clearbody d o t e. subst m.
  rewrite !N.mul_add_distr_r, N.mul_assoc, (N.mul_comm e d). lia.
Qed.
Lemma ten_pow j : IZR (Z.of_N (10 ^ N.of_nat j)) = (10 ^ j)%R.
Proof. rewrite N2Z.inj_pow, nat_N_Z. change (Z.of_N 10) with 10%Z. symmetry. apply (pow_IZR 10). Qed.
Lemma cut_real n k j : (j <= 16)%nat -> k * 10 ^ N.of_nat (16 - j) <= n < (k + 1) * 10 ^ N.of_nat (16 - j) ->
  cut_off (IZR (Z.of_N n) / 10 ^ 16) (IZR (Z.of_N k) / 10 ^ j).
Proof.
  intros J [A B]. exists j, (Z.of_N k). split; [auto|]. split; [reflexivity|].
  apply N2Z.inj_le, IZR_le in A. apply N2Z.inj_lt, IZR_lt in B.
  rewrite N2Z.inj_mul, mult_IZR, ten_pow in A. rewrite N2Z.inj_mul, mult_IZR, ten_pow, N2Z.inj_add, plus_IZR in B. change (IZR (Z.of_N 1)) with 1%R in B.
  assert (P : (10 ^ 16 = 10 ^ j * 10 ^ (16 - j))%R) by (rewrite <- pow_add; f_equal; lia).
  assert (P1 : (0 < 10 ^ j)%R) by (apply pow_lt; lra). assert (P2 : (0 < 10 ^ (16 - j))%R) by (apply pow_lt; lra).
  rewrite P. set (x := (10 ^ j)%R) in *. set (y := (10 ^ (16 - j))%R) in *. set (a := IZR (Z.of_N k)) in *. set (b := IZR (Z.of_N n)) in *. clearbody x y a b.
  assert (X : (b / (x * y) = b * / y * / x)%R) by (field; lra). rewrite X. unfold Rdiv.
  assert (I1 : (0 < / x)%R) by (apply Rinv_0_lt_compat; auto). assert (I2 : (0 < / y)%R) by (apply Rinv_0_lt_compat; auto).
  assert (Y1 : (a <= b * / y)%R).
  { apply Rmult_le_reg_r with y; auto. rewrite Rmult_assoc, Rinv_l, Rmult_1_r by lra. auto. }
  assert (Y2 : (b * / y < a + 1)%R).
  { apply Rmult_lt_reg_r with y; auto. rewrite Rmult_assoc, Rinv_l, Rmult_1_r by lra. auto. }
  split; [apply Rmult_le_compat_r; lra|]. replace (a * / x + / x)%R with ((a + 1) * / x)%R by ring. apply Rmult_lt_compat_r; auto.
Qed.
Lemma scaled_cell r : (0 <= r <= 1)%R -> Z.to_N (scaled16 r) <= 10 ^ 16.
Proof.
  intros H. unfold scaled16. rewrite Rabs_right by lra. destruct (rint_spec (r * IZR (10 ^ 16))) as [A _].
  assert (IZR (rint (r * IZR (10 ^ 16))) < IZR (10 ^ 16 + 1))%R.
  { rewrite plus_IZR. assert (0 < IZR (10 ^ 16))%R by (apply IZR_lt; lia). pose proof (Rle_abs (IZR (rint (r * IZR (10 ^ 16))) - r * IZR (10 ^ 16))). nra. }
  apply lt_IZR in H0. lia.
Qed.
Lemma float_cut fl x w w2 z : in_cell x -> (fmt_body x = w ++ w2)%list -> w <> [] -> float_of fl w = Some z -> reread_cut fl x z.
Proof.
  intros C E N F. destruct x as [r|b|]; cbn in C; [|tauto|].
  - rewrite fmt_fin in E. rewrite (proj2 (Rltb_false r 0)) in E by lra. cbn [app] in E. unfold fin_digits in E.
    pose proof (scaled_cell r C) as S. set (n := Z.to_N (scaled16 r)) in *. set (m := n mod 10 ^ 16) in *. set (q := n / 10 ^ 16) in *.
    assert (M : m < 10 ^ 16) by (apply N.mod_lt; lia).
    assert (NQ : n = q * 10 ^ 16 + m) by (pose proof (N.div_mod n (10 ^ 16) ltac:(lia)); unfold q, m; lia).
    assert (Q : q = 0 \/ q = 1) by lia.
    assert (D : dec_digits q = [q]) by (destruct Q as [-> | ->]; reflexivity).
    assert (DQ : digit q) by (unfold digit; lia). rewrite D in E. cbn [map app] in E. clearbody m q. clear D.
    assert (R16 : rounded16 r (IZR (Z.of_N n) / 10 ^ 16)).
    { exists (sgn16 r). split; [apply sgn16_nearest|]. unfold sgn16. rewrite (proj2 (Rltb_false r 0)) by lra. unfold n. rewrite Z2N.id by apply scaled16_nonneg. reflexivity. }
    clearbody n. remember (fixed 16 m) as ff eqn:FF. destruct w as [|c0 w]; [congruence|]. injection E as <- E.
    assert (exists k j, (j <= 16)%nat /\ z = fl (IZR (Z.of_N k) / 10 ^ j)%R /\ k * 10 ^ N.of_nat (16 - j) <= n < (k + 1) * 10 ^ N.of_nat (16 - j)) as (k & j & J & -> & K).
    { destruct w as [|c1 w].
      - rewrite float_digit in F by auto. injection F as <-. exists q, 0%nat. split; [lia|]. split; [reflexivity|]. change (N.of_nat (16 - 0)) with 16. rewrite NQ. nia.
      - injection E as <- E. set (j := List.length w).
        rewrite FF in E. assert (W : w = map digit_char (firstn j (fixed 16 m))).
        { rewrite <- firstn_map, E. unfold j. rewrite firstn_app, Nat.sub_diag, firstn_O, app_nil_r, firstn_all. reflexivity. }
        assert (J : (j <= 16)%nat).
        { apply (f_equal (@List.length BinNums.N)) in E. rewrite map_length, fixed_length, app_length in E. unfold j. lia. }
        rewrite W in F. rewrite float_digits in F; [|auto|]. 
        2: { apply Forall_forall. intros d I. pose proof (fixed_digits 16 m) as FD. rewrite Forall_forall in FD. apply FD. rewrite <- (firstn_skipn j). apply in_or_app. auto. }
        rewrite firstn_length_le in F by (rewrite fixed_length; auto). injection F as <-. eexists _, j. split; [auto|]. split; [reflexivity|]. rewrite NQ. apply cut_value; auto. }
    econstructor; [exact R16|]. apply cut_real; auto.
  - cbn in E. assert (z = NaN) as ->; [|constructor].
    destruct w as [|c0 [|c1 [|c2 [|c3 w]]]]; [congruence| | | |discriminate]; inversion E; subst; first [discriminate F|injection F as <-; reflexivity].
Qed.

(** * Cut rows *)
Definition no_m (l : text) : Prop := ~ In 109 l.
Lemma no_m_app a b : no_m a -> no_m b -> no_m (a ++ b).
Proof. intros A B I. apply in_app_or in I as [I|I]; auto. Qed.
Lemma no_m_left a b : no_m (a ++ b) -> no_m a.
Proof. intros H I. apply H, in_or_app. auto. Qed.
Lemma no_m_32 l : Forall (eq 32) l -> no_m l.
Proof. intros H I. rewrite Forall_forall in H. apply H in I. discriminate. Qed.
Lemma no_m_chars ds : Forall digit ds -> no_m (map digit_char ds).
Proof.
  intros H I. assert (F : Forall (fun c => c <> 109) (map digit_char ds)) by (apply chars_forall; auto; discriminate).
  rewrite Forall_forall in F. apply F in I. auto.
Qed.
Lemma no_m_fmt x : no_m (fmt_f16 x).
Proof.
  unfold fmt_f16, pad_left. apply no_m_app; [apply no_m_32, repeat_32|]. destruct x as [r|b|].
  - rewrite fmt_fin. apply no_m_app; [destruct (Rltb r 0); intros I; cbn in I; intuition discriminate|]. unfold fin_digits.
    apply no_m_app; [apply no_m_chars, dec_digits_spec|]. intros [I|I]; [discriminate|]. revert I. apply no_m_chars, fixed_digits.
  - destruct b; intros I; cbn in I; intuition discriminate.
  - intros I; cbn in I; intuition discriminate.
Qed.
Lemma no_m_row i v : Forall (eq 32) i -> no_m (row_str i v).
Proof.
  intros H. unfold row_str. pose proof (no_m_32 i H). assert (no_m (txt "   ")) by (apply no_m_32; repeat constructor). assert (no_m [NL]) by (intros I; cbn in I; intuition discriminate).
  pose proof no_m_fmt. auto 12 using no_m_app.
Qed.
Lemma contains_head a m l : contains (a :: m) l = true -> In a l.
Proof.
  induction l as [|b l IH]; cbn [contains prefixb]; [discriminate|]. intros H. apply orb_true_iff in H as [H|H]; [|right; auto].
  apply andb_true_iff in H as [H _]. apply N.eqb_eq in H. left. auto.
Qed.
Lemma no_m_stop l : no_m l -> contains stop_message l = false.
Proof. intros H. destruct (contains stop_message l) eqn:C; auto. exfalso. apply H. apply (contains_head 109 (tl stop_message)). exact C. Qed.

Lemma readline_no_nl c : ~ In 10 c -> readline c = (c, []).
Proof.
  induction c as [|a c IH]; intros H; [reflexivity|]. cbn [readline]. destruct (N.eqb_spec a NL) as [->|]; [exfalso; apply H; left; reflexivity|].
  rewrite IH by (intros I; apply H; right; auto). reflexivity.
Qed.
Lemma strict_no_nl (l c d : text) : single_line l -> (l ++ [10] = c ++ d)%list -> d <> [] -> ~ In 10 c.
Proof.
  intros [S _] H D I. destruct (exists_last D) as (d' & x & ->). rewrite app_assoc in H. apply app_inj_tail in H as [-> _]. apply S, in_or_app. auto.
Qed.
Lemma cut_read_row E msg i v c d : Forall (eq 32) i -> (row_str i v = c ++ d)%list -> d <> [] ->
  ~ In 10 c /\ ((exists l, read_row E msg c = Err (InvalidFileException (txt msg ++ l)) /\ no_m l) \/
  exists w w2 z, w <> [] /\ (fmt_body (nz v) = w ++ w2)%list /\ float_of (e_fl E) w = Some z /\
    read_row E msg c = Ok (mkN3 (reread_f (e_fl E) (nx v)) (reread_f (e_fl E) (ny v)) z, [])).
Proof.
  intros Hi H Hd. destruct (row_str_line i v Hi) as (l & EL & SL).
  assert (NC : ~ In 10 c) by (apply (strict_no_nl l c d SL); auto; congruence). split; [auto|].
  unfold read_row. rewrite readline_no_nl by auto. pose proof (split_cut c d) as X. rewrite <- H, split_row in X by (apply spaces_32; auto).
  assert (NM : no_m c) by (apply (no_m_left c d); rewrite <- H; apply no_m_row; auto).
  destruct (floats E (firstn 3 (split c))) as [fs|] eqn:F; [|left; unfold invalid; eauto].
  destruct fs as [|x [|y [|z [|]]]]; try (left; unfold invalid; eauto; fail). right.
  remember (split c) as sc eqn:SC. clear SC. inversion X as [l0 E0|w w2 l0 W E0|w l0 l1 X1 E0]; subst.
  { discriminate. }
  { cbn in F. destruct (float_of (e_fl E) w); discriminate. }
  inversion X1 as [l2 E1|w w2 l2 W E1|w l2 l3 X2 E1]; subst.
  { cbn in F. destruct (float_of (e_fl E) (fmt_body (nx v))); discriminate. }
  { cbn in F. destruct (float_of (e_fl E) (fmt_body (nx v))), (float_of (e_fl E) w); discriminate. }
  cbn [firstn floats] in F. rewrite !float_fmt in F.
  inversion X2 as [l4 E2|w w2 l4 W E2|w l4 l5 X3 E2]; subst.
  - discriminate.
  - cbn [firstn floats] in F. destruct (float_of (e_fl E) w) as [z'|] eqn:FW; [|discriminate]. cbn in F. injection F as <- <- <-.
    exists w, w2, z'. auto.
  - inversion X3; subst. cbn [firstn floats] in F. rewrite float_fmt in F. cbn in F. injection F as <- <- <-.
    exists (fmt_body (nz v)), [], (reread_f (e_fl E) (nz v)). rewrite app_nil_r, float_fmt. repeat split; auto. apply fmt_nospace.
Qed.

Lemma read_row_nil E msg : read_row E msg [] = Err (InvalidFileException (txt msg ++ [])).
Proof. reflexivity. Qed.
Lemma no_m_nil : no_m []. Proof. intros []. Qed.
Definition cut_rows_of (fl : R -> num) (vs got : list n3) : Prop :=
  exists vs0 v w w2 z, (vs = vs0 ++ [v])%list /\ w <> [] /\ (fmt_body (nz v) = w ++ w2)%list /\ float_of fl w = Some z /\
    (got = map (reread3_f fl) vs0 ++ [mkN3 (reread_f fl (nx v)) (reread_f fl (ny v)) z])%list.
Lemma cut_read_rows E msg i vs : Forall (eq 32) i -> forall c d, (flat_map (row_str i) vs = c ++ d)%list -> d <> [] ->
  (exists l, read_rows E msg (List.length vs) c = Err (InvalidFileException (txt msg ++ l)) /\ no_m l) \/
  (exists got, read_rows E msg (List.length vs) c = Ok (got, []) /\ cut_rows_of (e_fl E) vs got /\ forall t, c <> (t ++ [10])%list).
Proof.
  intros Hi. induction vs as [|v vs IH]; intros c d H Hd.
  - cbn in H. symmetry in H. apply app_eq_nil in H as [_ H]. congruence.
  - cbn [flat_map] in H. apply prefix_cases in H as [(c' & -> & H)|(d' & N & H & _)].
    + cbn [List.length read_rows]. rewrite read_row_str by auto. cbn [rbind].
      destruct (IH c' d H Hd) as [(l & R & M)|(got & R & (vs0 & v1 & w & w2 & z & A & B & C & D & G) & T)]; rewrite R; cbn [rbind]; [left; eauto|].
      right. exists (reread3_f (e_fl E) v :: got). split; [reflexivity|]. split.
      * exists (v :: vs0), v1, w, w2, z. rewrite A, G. repeat split; auto.
      * intros t Ht. destruct c' as [|x c'].
        -- destruct vs; cbn in R; [|discriminate]. cbn in H. destruct d; [congruence|discriminate].
        -- destruct (exists_last (l := x :: c')) as (u & y & Eu); [discriminate|]. rewrite Eu in Ht. rewrite app_assoc in Ht. apply app_inj_tail in Ht as [_ ->]. apply (T u). auto.
    + cbn [List.length read_rows]. destruct (cut_read_row E msg i v c d' Hi H N) as (NC & [(l & R & M)|(w & w2 & z & A & B & C & R)]); rewrite R; cbn [rbind]; [left; eauto|].
      destruct vs as [|v1 vs].
      * right. cbn. eexists. split; [reflexivity|]. split.
        -- exists [], v, w, w2, z. repeat split; auto.
        -- intros t ->. apply NC, in_or_app. right. left. auto.
      * left. exists []. split; [|apply no_m_nil]. cbn [List.length read_rows]. rewrite read_row_nil. reflexivity.
Qed.
