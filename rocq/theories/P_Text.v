(** Lemmas about text primitives: splitting, lines, number formatting and parsing. *)
From Coq Require Import String Ascii ZArith NArith Reals Lra Lia Psatz Bool Arith List.
From Verif Require Import Base LinAlg Constants M_Spectrum M_Text M_Poscar S_Spectrum S_Text P_Convolve2.
Import ListNotations.
Local Open Scope N_scope.

Lemma teqb_true a b : teqb a b = true <-> a = b.
Proof. unfold teqb. destruct (list_eq_dec N.eq_dec a b); split; intros; congruence. Qed.
Lemma teqb_refl a : teqb a a = true.
Proof. apply teqb_true. auto. Qed.
Lemma teqb_false a b : teqb a b = false <-> a <> b.
Proof. unfold teqb. destruct (list_eq_dec N.eq_dec a b); split; intros; congruence. Qed.

Lemma txt_app a b : txt (a ++ b)%string = (txt a ++ txt b)%list.
Proof. induction a; simpl; congruence. Qed.

(** * Splitting *)
Definition nospace (s : text) : Prop := Forall (fun c => is_space c = false) s.

Lemma split_nil : split [] = [].
Proof. reflexivity. Qed.
Lemma split_space c s : is_space c = true -> split (c :: s) = split s.
Proof. intros H. unfold split. cbn [split_go]. destruct (split_go s) as [w ws]. rewrite H. reflexivity. Qed.
Lemma split_spaces l s : Forall (fun c => is_space c = true) l -> split (l ++ s) = split s.
Proof. induction 1; auto. cbn [app]. rewrite split_space; auto. Qed.
Lemma split_go_word w s : nospace w -> split_go (w ++ s) = let '(v, vs) := split_go s in ((w ++ v)%list, vs).
Proof.
  induction 1 as [|c w H _ IH]; cbn [app].
  - destruct (split_go s); auto.
  - cbn [split_go]. rewrite IH. destruct (split_go s) as [v vs]. rewrite H. reflexivity.
Qed.
Lemma split_word w c s : nospace w -> w <> [] -> is_space c = true -> split (w ++ c :: s) = w :: split s.
Proof.
  intros N NE H. unfold split. rewrite split_go_word by auto. cbn [split_go].
  destruct (split_go s) as [v vs]. rewrite H. rewrite app_nil_r. destruct w; [congruence|reflexivity].
Qed.
Lemma split_last w : nospace w -> w <> [] -> split w = [w].
Proof.
  intros N NE. unfold split. rewrite <- (app_nil_r w) at 1. rewrite split_go_word by auto. cbn. rewrite app_nil_r.
  destruct w; [congruence|reflexivity].
Qed.
Lemma split_trail s c : is_space c = true -> split (s ++ [c]) = split s.
Proof.
  intros H. unfold split.
  assert (G : split_go (s ++ [c]) = split_go s).
  { induction s as [|d s IH]; cbn [app split_go]; [rewrite H; reflexivity|]. rewrite IH. reflexivity. }
  rewrite G. reflexivity.
Qed.

Lemma nospace_app a b : nospace a -> nospace b -> nospace (a ++ b).
Proof. apply (fun x y => proj2 (Forall_app _ _ _) (conj x y)). Qed.

(** * strip *)
Lemma lstrip_nospace s : nospace s -> lstrip s = s.
Proof. destruct 1 as [|c s H]; auto. cbn [lstrip]. rewrite H. auto. Qed.
Lemma nospace_rev s : nospace s -> nospace (rev s).
Proof. apply Forall_rev. Qed.
Lemma strip_nospace s : nospace s -> strip s = s.
Proof. intros H. unfold strip. rewrite (lstrip_nospace s) by auto. rewrite lstrip_nospace by (apply nospace_rev; auto). apply rev_involutive. Qed.
Lemma lstrip_app s c : is_space c = true -> lstrip (s ++ [c]) = match lstrip s with [] => [] | l => (l ++ [c])%list end.
Proof.
  intros H. induction s as [|d s IH]; cbn [app lstrip].
  - rewrite H. auto.
  - destruct (is_space d); auto.
Qed.
Lemma strip_trail s c : is_space c = true -> strip (s ++ [c]) = strip s.
Proof.
  intros H. unfold strip. rewrite lstrip_app by auto.
  destruct (lstrip s) as [|d l]; auto. f_equal. rewrite rev_app_distr. cbn [rev app lstrip]. rewrite H. auto.
Qed.
Lemma strip_space c s : is_space c = true -> strip (c :: s) = strip s.
Proof. intros H. unfold strip. cbn [lstrip]. rewrite H. auto. Qed.
Lemma strip_spaces l s : Forall (fun c => is_space c = true) l -> strip (l ++ s) = strip s.
Proof. induction 1; auto. cbn [app]. rewrite strip_space; auto. Qed.

Lemma float_of_strip fl a b : strip a = strip b -> float_of fl a = float_of fl b.
Proof. unfold float_of. intros ->. auto. Qed.
Lemma int_of_strip a b : strip a = strip b -> int_of a = int_of b.
Proof. unfold int_of. intros ->. auto. Qed.

(** * Lines *)
Lemma readline_spec s :
  readline s = ((if existsb (N.eqb 10) s then first_line s ++ [10] else first_line s)%list, after_line s).
Proof.
  induction s as [|c s IH]; auto. cbn [readline first_line after_line existsb]. unfold NL.
  rewrite (N.eqb_sym 10 c). destruct (N.eqb_spec c 10) as [->|N]; auto.
  rewrite IH. cbn [orb]. destruct (existsb (N.eqb 10) s); reflexivity.
Qed.
Lemma readline_line l s : ~ In 10 l -> readline (l ++ 10 :: s) = ((l ++ [10])%list, s).
Proof.
  induction l as [|c l IH]; intros H; cbn [app readline]; unfold NL.
  - reflexivity.
  - destruct (N.eqb_spec c 10); [subst; exfalso; apply H; left; auto|]. rewrite IH; auto. intros I. apply H. right; auto.
Qed.
Lemma first_line_app l s : ~ In 10 l -> first_line (l ++ 10 :: s) = l.
Proof.
  induction l as [|c l IH]; intros H; cbn [app first_line]; auto.
  destruct (N.eqb_spec c 10); [subst; exfalso; apply H; left; auto|]. rewrite IH; auto. intros I. apply H. right; auto.
Qed.
Lemma after_line_app l s : ~ In 10 l -> after_line (l ++ 10 :: s) = s.
Proof.
  induction l as [|c l IH]; intros H; cbn [app after_line]; auto.
  destruct (N.eqb_spec c 10); [subst; exfalso; apply H; left; auto|]. rewrite IH; auto. intros I. apply H. right; auto.
Qed.
Lemma universal_id s : ~ In 13 s -> universal s = s.
Proof.
  induction s as [|c s IH]; intros H; auto. cbn [universal].
  destruct (N.eqb_spec c 13); [subst; exfalso; apply H; left; auto|]. rewrite IH; auto. intros I. apply H. right; auto.
Qed.

Lemma split_readline s : split (fst (readline s)) = split (first_line s).
Proof.
  rewrite readline_spec. cbn [fst]. destruct (existsb (N.eqb 10) s); auto.
  apply split_trail. reflexivity.
Qed.
Lemma strip_readline s : strip (fst (readline s)) = strip (first_line s).
Proof.
  rewrite readline_spec. cbn [fst]. destruct (existsb (N.eqb 10) s); auto.
  apply strip_trail. reflexivity.
Qed.
Lemma readline_nil s : fst (readline s) = [] <-> s = [].
Proof.
  split; [|intros ->; auto]. destruct s as [|c s]; auto. cbn [readline]. destruct (c =? NL); [discriminate|].
  destruct (readline s); discriminate.
Qed.
Lemma snd_readline s : snd (readline s) = after_line s.
Proof. rewrite readline_spec. auto. Qed.
Lemma after_lines_S k s : after_lines (S k) s = after_line (after_lines k s).
Proof. revert s. induction k; intros; auto. cbn [after_lines] in *. apply IHk. Qed.
Lemma after_line_length s : (List.length (after_line s) <= List.length s)%nat.
Proof. induction s as [|c s IH]; auto. cbn [after_line]. destruct (c =? 10); simpl; lia. Qed.
Lemma after_line_lt s : s <> [] -> (List.length (after_line s) < List.length s)%nat.
Proof. destruct s as [|c s]; [congruence|]. intros _. cbn [after_line]. destruct (c =? 10); simpl; [lia|]. pose proof (after_line_length s). lia. Qed.

(** * Digits *)
Definition digit (d : N) : Prop := d < 10.
Lemma digit_val_char d : digit d -> digit_val (digit_char d) = Some d.
Proof.
  unfold digit, digit_val, digit_char. intros H.
  rewrite (proj2 (N.leb_le 48 (48 + d))) by lia. rewrite (proj2 (N.leb_le (48 + d) 57)) by lia. cbn [andb]. f_equal. lia.
Qed.
Lemma digits_more_chars ds : Forall digit ds -> digits_more (map digit_char ds) = Some ds.
Proof.
  induction 1 as [|d ds H _ IH]; auto. cbn [map digits_more].
  destruct (N.eqb_spec (digit_char d) 95); [unfold digit_char, digit in *; lia|].
  rewrite digit_val_char by auto. rewrite IH. auto.
Qed.
Lemma digit_part_chars ds : Forall digit ds -> ds <> [] -> digit_part (map digit_char ds) = Some ds.
Proof.
  intros H. destruct H as [|d ds H1 H2]; [congruence|]. intros _. cbn [map digit_part].
  rewrite digit_val_char, digits_more_chars; auto.
Qed.
Lemma opt_digits_chars ds : Forall digit ds -> opt_digits (map digit_char ds) = Some ds.
Proof.
  intros H. destruct ds as [|d ds]; auto. unfold opt_digits. cbn [map].
  apply (digit_part_chars (d :: ds)); auto. discriminate.
Qed.

Lemma value_acc ds : forall a, fold_left (fun a d => 10 * a + d) ds a = a * 10 ^ N.of_nat (List.length ds) + digits_value ds.
Proof.
  unfold digits_value. induction ds as [|d ds IH]; intros a; cbn [fold_left List.length].
  - rewrite N.pow_0_r. lia.
  - rewrite IH, (IH (10 * 0 + d)). rewrite Nat2N.inj_succ, N.pow_succ_r'. ring.
Qed.
Lemma value_app a b : digits_value (a ++ b) = digits_value a * 10 ^ N.of_nat (List.length b) + digits_value b.
Proof. unfold digits_value at 1. rewrite fold_left_app. fold (digits_value a). apply value_acc. Qed.

Lemma fixed_length w n : List.length (fixed w n) = w.
Proof. revert n. induction w; intros n; cbn [fixed]; auto. rewrite app_length, IHw. simpl. lia. Qed.
Lemma fixed_digits w n : Forall digit (fixed w n).
Proof.
  revert n. induction w; intros n; cbn [fixed]; constructor || apply Forall_app; auto. split; auto.
  constructor; auto. apply N.mod_lt. lia.
Qed.
Lemma fixed_value w n : digits_value (fixed w n) = n mod 10 ^ N.of_nat w.
Proof.
  revert n. induction w; intros n; cbn [fixed].
  - change (N.of_nat 0) with 0. rewrite N.pow_0_r, N.mod_1_r. auto.
  - rewrite value_app, IHw. change (N.of_nat (List.length [n mod 10])) with 1. rewrite N.pow_1_r.
    unfold digits_value. cbn [fold_left]. rewrite Nat2N.inj_succ, N.pow_succ_r'.
    rewrite (N.mod_mul_r n 10 (10 ^ N.of_nat w)) by (try apply N.pow_nonzero; lia). ring.
Qed.

Lemma dec_fuel_spec f : forall n, (N.to_nat (N.size n) <= f)%nat \/ n < 10 /\ (0 < f)%nat ->
  Forall digit (dec_fuel f n) /\ digits_value (dec_fuel f n) = n /\ (0 < List.length (dec_fuel f n) \/ f = 0)%nat.
Proof.
  induction f as [|f IH]; intros n H.
  - destruct H as [H|[_ H]]; [|lia]. assert (N.size n = 0) by lia. destruct n; [|discriminate]. repeat split; auto. constructor.
  - cbn [dec_fuel]. destruct (N.ltb_spec n 10).
    + split; [constructor; auto|split; [unfold digits_value; cbn [fold_left]; lia|simpl; lia]].
    + destruct H as [H|[H _]]; [|lia].
      assert (S1 : (N.to_nat (N.size (n / 10)) <= f)%nat).
      { assert (N.size (n / 10) < N.size n).
        { rewrite !N.size_log2 by (try lia; intros X; apply N.div_small_iff in X; lia).
          assert (N.log2 (n / 10) < N.log2 n); [|lia].
          apply N.le_lt_trans with (N.log2 (n / 2)).
          - apply N.log2_le_mono. apply N.div_le_compat_l. lia.
          - rewrite <- N.div2_div. rewrite N.div2_spec, N.log2_shiftr.
            assert (0 < N.log2 n) by (apply N.log2_pos; lia). lia. }
        lia. }
      destruct (IH (n / 10) (or_introl S1)) as (A & B & C). repeat split.
      * apply Forall_app. split; auto. constructor; auto. apply N.mod_lt. lia.
      * rewrite value_app, B. change (N.of_nat (List.length [n mod 10])) with 1. rewrite N.pow_1_r.
        unfold digits_value. cbn [fold_left]. pose proof (N.div_mod n 10 ltac:(lia)). lia.
      * left. rewrite app_length. simpl. lia.
Qed.
Lemma size_nat_size n : N.to_nat (N.size n) = N.size_nat n.
Proof. destruct n; auto. simpl. induction p; simpl; auto; rewrite Pos2Nat.inj_succ; f_equal; auto. Qed.
Lemma dec_digits_spec n : Forall digit (dec_digits n) /\ digits_value (dec_digits n) = n /\ dec_digits n <> [].
Proof.
  unfold dec_digits. destruct (dec_fuel_spec (S (N.size_nat n)) n) as (A & B & C).
  - left. rewrite size_nat_size. lia.
  - repeat split; auto. intros E. rewrite E in C. simpl in C. lia.
Qed.

Lemma digit_char_cases d : digit d -> In (digit_char d) [48;49;50;51;52;53;54;55;56;57].
Proof.
  unfold digit, digit_char. intros H.
  assert (d = 0 \/ d = 1 \/ d = 2 \/ d = 3 \/ d = 4 \/ d = 5 \/ d = 6 \/ d = 7 \/ d = 8 \/ d = 9) by lia.
  repeat destruct H0 as [->|H0]; try (subst d); simpl; tauto.
Qed.
Lemma chars_forall (P : N -> Prop) ds : Forall digit ds ->
  P 48 -> P 49 -> P 50 -> P 51 -> P 52 -> P 53 -> P 54 -> P 55 -> P 56 -> P 57 -> Forall P (map digit_char ds).
Proof.
  intros H. intros. apply Forall_forall. intros c I. apply in_map_iff in I as (d & <- & I).
  rewrite Forall_forall in H. specialize (H d I). apply digit_char_cases in H. simpl in H.
  repeat destruct H as [<-|H]; auto. tauto.
Qed.
Lemma nospace_chars ds : Forall digit ds -> nospace (map digit_char ds).
Proof. intros H. apply chars_forall; auto. Qed.

Lemma int_of_str_int z : int_of (str_int z) = Some z.
Proof.
  unfold str_int, int_of. destruct (dec_digits_spec (Z.abs_N z)) as (A & B & C).
  pose proof (nospace_chars _ A) as NS.
  destruct (Z.ltb_spec z 0).
  - rewrite strip_nospace by (cbn [app]; constructor; auto). cbn [app sign]. change (45 =? 45) with true. cbv iota.
    rewrite digit_part_chars by auto. cbn [option_map]. rewrite B. unfold signed. f_equal. lia.
  - cbn [app]. rewrite strip_nospace by auto.
    assert (S0 : sign (map digit_char (dec_digits (Z.abs_N z))) = (false, map digit_char (dec_digits (Z.abs_N z)))).
    { destruct (dec_digits (Z.abs_N z)) as [|d ds]; [congruence|]. inversion A; subst. cbn [map sign].
      unfold digit, digit_char in *. destruct (N.eqb_spec (48 + d) 45); [lia|]. destruct (N.eqb_spec (48 + d) 43); [lia|]. auto. }
    rewrite S0. rewrite digit_part_chars by auto. cbn [option_map]. rewrite B. unfold signed. f_equal. lia.
Qed.
Lemma nospace_str_int z : nospace (str_int z).
Proof.
  unfold str_int. destruct (dec_digits_spec (Z.abs_N z)) as (A & _ & _). apply nospace_app; [|apply nospace_chars; auto].
  destruct (z <? 0)%Z; repeat constructor.
Qed.
Lemma str_int_nonnil z : str_int z <> [].
Proof.
  unfold str_int. destruct (dec_digits_spec (Z.abs_N z)) as (_ & _ & C). destruct (z <? 0)%Z; [discriminate|].
  destruct (dec_digits (Z.abs_N z)); [congruence|discriminate].
Qed.

(** * Formatting a float and reading it back *)
Lemma break_none p s : Forall (fun c => p c = false) s -> break p s = (s, None).
Proof. induction 1 as [|c s H _ IH]; auto. cbn [break]. rewrite H, IH. auto. Qed.
Lemma break_at p s c t : Forall (fun c => p c = false) s -> p c = true -> break p (s ++ c :: t) = (s, Some t).
Proof. induction 1 as [|d s H _ IH]; intros Hc; cbn [app break]; [rewrite Hc; auto|]. rewrite H, IH; auto. Qed.

Definition scaled16 (r : R) : Z := rint (Rabs r * IZR (10 ^ 16)).
Lemma rint_nonneg x : (0 <= x)%R -> (0 <= rint x)%Z.
Proof.
  intros H. destruct (rint_spec x) as [A _]. pose proof (Rle_abs (x - IZR (rint x))) as A1; pose proof (Rle_abs (IZR (rint x) - x)) as A2; rewrite Rabs_minus_sym in A1; simpl in A.
  assert (-1 < IZR (rint x))%R by lra. apply lt_IZR in H0. lia.
Qed.
Lemma scaled16_nonneg r : (0 <= scaled16 r)%Z.
Proof. apply rint_nonneg. apply Rmult_le_pos; [apply Rabs_pos|]. apply IZR_le. lia. Qed.
Definition sgn16 (r : R) : Z := if Rltb r 0 then (- scaled16 r)%Z else scaled16 r.

Lemma nearest_even_opp x n : nearest_even x n -> nearest_even (- x) (- n).
Proof.
  intros [A B]. unfold nearest_even. rewrite opp_IZR. replace (- IZR n - - x)%R with (- (IZR n - x))%R by ring.
  rewrite Rabs_Ropp. split; auto. intros H. rewrite Z.even_opp. auto.
Qed.
Lemma sgn16_nearest r : nearest_even (r * 10 ^ 16)%R (sgn16 r).
Proof.
  unfold sgn16, scaled16. replace (10 ^ 16)%R with (IZR (10 ^ 16)) by (change (10 ^ 16)%Z with (10 ^ Z.of_nat 16)%Z; rewrite <- pow_IZR; reflexivity).
  destruct (Rltb r 0) eqn:E; [apply Rltb_true in E|apply Rltb_false in E].
  - replace (r * IZR (10 ^ 16))%R with (- (Rabs r * IZR (10 ^ 16)))%R by (rewrite Rabs_left by auto; ring).
    apply nearest_even_opp. apply rint_spec.
  - rewrite Rabs_right by lra. apply rint_spec.
Qed.

Definition fin_digits (r : R) : text :=
  (map digit_char (dec_digits (Z.to_N (scaled16 r) / 10 ^ 16))
   ++ 46 :: map digit_char (fixed 16 (Z.to_N (scaled16 r) mod 10 ^ 16)))%list.
Lemma fmt_fin r : fmt_body (Fin r) = ((if Rltb r 0 then [45] else []) ++ fin_digits r)%list.
Proof. unfold fmt_body, fin_digits, scaled16. cbv zeta. rewrite <- app_assoc. reflexivity. Qed.

Lemma float_fin fl r : float_of fl (fmt_body (Fin r)) = Some (fl (IZR (sgn16 r) / 10 ^ 16)%R).
Proof.
  rewrite fmt_fin. set (n := Z.to_N (scaled16 r)).
  destruct (dec_digits_spec (n / 10 ^ 16)) as (A & B & C).
  pose proof (fixed_digits 16 (n mod 10 ^ 16)) as FD.
  assert (NS : nospace (fin_digits r)).
  { unfold fin_digits. apply nospace_app; [apply nospace_chars; auto|]. constructor; [reflexivity|apply nospace_chars; auto]. }
  unfold float_of. rewrite strip_nospace.
  2: { apply nospace_app; auto. destruct (Rltb r 0); repeat constructor. }
  assert (S0 : sign ((if Rltb r 0 then [45] else []) ++ fin_digits r) = (Rltb r 0, fin_digits r)).
  { destruct (Rltb r 0); [reflexivity|]. cbn [app]. unfold fin_digits. fold n.
    destruct (dec_digits (n / 10 ^ 16)) as [|d ds]; [congruence|]. inversion A; subst. cbn [map app sign].
    unfold digit, digit_char in *. destruct (N.eqb_spec (48 + d) 45); [lia|]. destruct (N.eqb_spec (48 + d) 43); [lia|]. auto. }
  rewrite S0.
  assert (NI : forall x y, In x [105; 110] -> teqb (map lower (fin_digits r)) (x :: y) = false).
  { intros x y I. apply teqb_false. unfold fin_digits. fold n. destruct (dec_digits (n / 10 ^ 16)) as [|d ds]; [congruence|].
    inversion A; subst. cbn [map app]. intros E. injection E as E _.
    unfold digit, digit_char in *. unfold lower in E. rewrite (proj2 (N.leb_gt 65 (48 + d))) in E by lia. cbn [andb] in E.
    simpl in I. lia. }
  change (txt "inf") with [105; 110; 102]. change (txt "infinity") with (105 :: [110; 102; 105; 110; 105; 116; 121]).
  change (txt "nan") with (110 :: [97; 110]).
  rewrite !NI by (simpl; auto). cbn [orb].
  rewrite break_none.
  2: { unfold fin_digits. apply Forall_app. split; [apply chars_forall; auto|]. constructor; [reflexivity|apply chars_forall; auto]. }
  unfold fin_digits at 1. fold n. rewrite break_at by (try apply chars_forall; auto).
  rewrite opt_digits_chars by auto. rewrite opt_digits_chars by auto.
  set (dd := (dec_digits (n / 10 ^ 16) ++ fixed 16 (n mod 10 ^ 16))%list).
  assert (V : digits_value dd = n).
  { unfold dd. rewrite value_app, B, fixed_value, fixed_length. change (10 ^ N.of_nat 16) with (10 ^ 16).
    rewrite N.mod_mod by lia. pose proof (N.div_mod n (10 ^ 16) ltac:(lia)). lia. }
  rewrite fixed_length.
  assert (NE : dd <> []) by (unfold dd; destruct (dec_digits (n / 10 ^ 16)); [congruence|discriminate]).
  destruct dd as [|d0 dd'] eqn:D; [congruence|]. do 2 f_equal. rewrite V.
  change (0 - Z.of_nat 16)%Z with (-16)%Z. unfold Rdiv. f_equal.
  unfold signed, sgn16, n. rewrite Z2N.id by apply scaled16_nonneg. reflexivity.
Qed.

Lemma reread_fmt fl x : exists y, float_of fl (fmt_body x) = Some y /\ reread fl x y.
Proof.
  destruct x as [r|b|].
  - exists (fl (IZR (sgn16 r) / 10 ^ 16)%R). split; [apply float_fin|]. constructor. exists (sgn16 r). split; auto. apply sgn16_nearest.
  - exists (Inf b). split; [destruct b; reflexivity|constructor].
  - exists NaN. split; [reflexivity|constructor].
Qed.
Lemma fmt_nospace x : nospace (fmt_body x) /\ fmt_body x <> [].
Proof.
  destruct x as [r|b|]; [|destruct b; (split; [unfold nospace; simpl fmt_body; apply Forall_forall; intros c I; simpl in I; intuition (subst; reflexivity)|discriminate])|split; [apply Forall_forall; intros c I; simpl in I; intuition (subst; reflexivity)|discriminate]].
  rewrite fmt_fin. destruct (dec_digits_spec (Z.to_N (scaled16 r) / 10 ^ 16)) as (A & B & C). split.
  - apply nospace_app; [destruct (Rltb r 0); repeat constructor|]. unfold fin_digits.
    apply nospace_app; [apply nospace_chars; auto|]. constructor; [reflexivity|apply nospace_chars, fixed_digits].
  - destruct (Rltb r 0); [discriminate|]. unfold fin_digits. destruct (dec_digits (Z.to_N (scaled16 r) / 10 ^ 16)); discriminate.
Qed.
Lemma space_not_nl c : is_space c = false -> c <> 10 /\ c <> 13.
Proof. intros H. split; intros ->; discriminate. Qed.
Lemma nospace_single s : nospace s -> single_line s.
Proof.
  intros H. unfold nospace in H; rewrite Forall_forall in H. split; intros I; apply H in I; discriminate.
Qed.
