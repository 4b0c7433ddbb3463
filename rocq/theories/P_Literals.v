(** Words, numbers and line ends of text files: the functions of M_Text against their grammars. *)
From Coq Require Import String Ascii ZArith NArith Reals Bool Arith List Lia Lra.
From Verif Require Import Base LinAlg M_Spectrum M_Text S_Spectrum S_Text S_Literals P_Text.
Import ListNotations.
Local Open Scope N_scope.

(** * White space *)
Lemma is_space_white c : is_space c = true <-> white c.
Proof.
  unfold is_space, white. rewrite existsb_exists. split.
  - intros (x & H & E). apply N.eqb_eq in E. subst x. cbn [In] in H. lia.
  - intros H. exists c. split; [|apply N.eqb_refl]. cbn [In]. lia.
Qed.
Lemma is_space_not c : is_space c = false <-> ~ white c.
Proof. rewrite <- is_space_white. destruct (is_space c); split; congruence. Qed.
Lemma blank_spaces s : blank s <-> Forall (fun c => is_space c = true) s.
Proof. unfold blank. split; apply Forall_impl; intros c; apply is_space_white. Qed.
Lemma word_nospace w : word w <-> w <> [] /\ nospace w.
Proof. unfold word, nospace. split; intros [A B]; (split; [exact A|]); revert B; apply Forall_impl; intros c; apply is_space_not. Qed.
Lemma split_words s ws : words_of s ws -> split s = ws.
Proof.
  induction 1 as [s H|pre w H1 H2|pre w c s ws H1 H2 H3 _ IH].
  - apply blank_spaces in H. rewrite <- (app_nil_r s), split_spaces by auto. reflexivity.
  - apply blank_spaces in H1. apply word_nospace in H2 as [A B]. rewrite split_spaces by auto. apply split_last; auto.
  - apply blank_spaces in H1. apply word_nospace in H2 as [A B]. apply is_space_white in H3. rewrite split_spaces, split_word, IH by auto. reflexivity.
Qed.
Lemma span_blank s : exists pre r, s = (pre ++ r)%list /\ blank pre /\ (forall c r', r = c :: r' -> ~ white c).
Proof.
  induction s as [|c s (pre & r & -> & H & R)]; [exists [], []; repeat split; [constructor|discriminate]|].
  destruct (is_space c) eqn:E.
  - exists (c :: pre), r. split; [reflexivity|]. split; [constructor; [apply is_space_white; exact E|exact H]|exact R].
  - exists [], (c :: pre ++ r). split; [reflexivity|]. split; [constructor|]. intros d r' X. injection X as <- _. apply is_space_not. exact E.
Qed.
Lemma span_word s : exists w r, s = (w ++ r)%list /\ Forall (fun c => ~ white c) w /\ (forall c r', r = c :: r' -> white c).
Proof.
  induction s as [|c s (w & r & -> & H & R)]; [exists [], []; repeat split; [constructor|discriminate]|].
  destruct (is_space c) eqn:E.
  - exists [], (c :: w ++ r). split; [reflexivity|]. split; [constructor|]. intros d r' X. injection X as <- _. apply is_space_white. exact E.
  - exists (c :: w), r. split; [reflexivity|]. split; [constructor; [apply is_space_not; exact E|exact H]|exact R].
Qed.
Lemma words_exist : forall n s, (List.length s <= n)%nat -> exists ws, words_of s ws.
Proof.
  induction n as [|n IH]; intros s L.
  - destruct s; [|cbn in L; lia]. exists []. constructor. constructor.
  - destruct (span_blank s) as (pre & r & -> & Hp & Hr). destruct (span_word r) as (w & q & -> & Hw & Hq).
    destruct w as [|c w].
    + destruct q as [|c q]; [exists []; constructor; rewrite app_nil_r; exact Hp|]. exfalso. apply (Hr c q eq_refl). apply (Hq c q eq_refl).
    + destruct q as [|d q].
      * exists [c :: w]. rewrite app_nil_r. constructor; [exact Hp|]. split; [discriminate|exact Hw].
      * destruct (IH q) as (ws & E); [rewrite !app_length in L; cbn in L; lia|]. exists ((c :: w) :: ws).
        apply words_more; auto; [split; [discriminate|exact Hw]|apply (Hq d q eq_refl)].
Qed.
Lemma f_split s ws : split s = ws <-> words_of s ws.
Proof.
  split; [|apply split_words]. intros <-. destruct (words_exist (List.length s) s (Nat.le_refl _)) as (ws & H). rewrite (split_words _ _ H). exact H.
Qed.

(** * strip *)
Lemma lstrip_first s : (forall c t, s = c :: t -> ~ white c) -> lstrip s = s.
Proof. destruct s as [|c s]; [reflexivity|]. intros H. cbn [lstrip]. specialize (H c s eq_refl). apply is_space_not in H. rewrite H. reflexivity. Qed.
Lemma strip_blank_end s post : blank post -> strip (s ++ post) = strip s.
Proof.
  revert s. induction post as [|c post IH]; intros s H; [rewrite app_nil_r; reflexivity|]. inversion H; subst.
  change (c :: post) with ([c] ++ post)%list. rewrite app_assoc, IH by auto. apply strip_trail. apply is_space_white. auto.
Qed.
Lemma strip_trimmed s t : trimmed s t -> strip s = t.
Proof.
  intros (pre & post & -> & A & B & F & L). rewrite strip_spaces by (apply blank_spaces; exact A). rewrite strip_blank_end by exact B.
  unfold strip. rewrite (lstrip_first t F). rewrite lstrip_first; [apply rev_involutive|].
  intros c t' E. apply (L (rev t') c). rewrite <- (rev_involutive t), E. reflexivity.
Qed.
Lemma trimmed_exists s : exists t, trimmed s t.
Proof.
  destruct (span_blank s) as (pre & r & -> & Hp & Hr). destruct (span_blank (rev r)) as (post & q & E & Hq & Hl).
  exists (rev q), pre, (rev post). assert (R : r = (rev q ++ rev post)%list) by (rewrite <- rev_app_distr, <- E, rev_involutive; reflexivity).
  split; [rewrite R; reflexivity|]. split; [exact Hp|]. split; [apply Forall_rev; exact Hq|]. split.
  - intros c t' X. apply (Hr c (t' ++ rev post)%list). rewrite R, X. reflexivity.
  - intros t' c X. apply (Hl c (rev t')). rewrite <- (rev_involutive q), X, rev_app_distr. reflexivity.
Qed.
Lemma f_strip s t : strip s = t <-> trimmed s t.
Proof. split; [|apply strip_trimmed]. intros <-. destruct (trimmed_exists s) as (t & H). rewrite (strip_trimmed _ _ H). exact H. Qed.

(** * Line ends *)
Lemma universal_newlines s t : newlines s t -> universal s = t.
Proof.
  induction 1 as [|c s t H _ IH|s t _ IH|s t H _ IH]; cbn [universal]; [reflexivity| | |].
  - apply N.eqb_neq in H. rewrite H, IH. reflexivity.
  - cbn. rewrite IH. reflexivity.
  - rewrite N.eqb_refl. destruct s as [|d s]; [cbn in IH |- *; rewrite IH; reflexivity|]. replace (d =? 10) with false; [rewrite IH; reflexivity|].
    symmetry. apply N.eqb_neq. intros ->. apply (H s). reflexivity.
Qed.
Lemma newlines_exist : forall n s, (List.length s <= n)%nat -> exists t, newlines s t.
Proof.
  induction n as [|n IH]; intros s L; (destruct s as [|c s]; [exists []; constructor|cbn in L; try lia]).
  destruct (N.eq_dec c 13) as [->|Hc].
  - destruct s as [|d s]; [exists [10]; apply newlines_cr; [discriminate|constructor]|]. destruct (N.eq_dec d 10) as [->|Hd].
    + destruct (IH s) as (t & H); [cbn in L; lia|]. exists (10 :: t). constructor. exact H.
    + destruct (IH (d :: s)) as (t & H); [lia|]. exists (10 :: t). apply newlines_cr; [congruence|exact H].
  - destruct (IH s) as (t & H); [lia|]. exists (c :: t). constructor; auto.
Qed.
Lemma f_universal s t : universal s = t <-> newlines s t.
Proof. split; [|apply universal_newlines]. intros <-. destruct (newlines_exist (List.length s) s (Nat.le_refl _)) as (t & H). rewrite (universal_newlines _ _ H). exact H. Qed.

(** * Digits *)
Lemma digit_val_is c d : digit_val c = Some d <-> digit_is c d.
Proof.
  unfold digit_val, digit_is. destruct ((48 <=? c) && (c <=? 57)) eqn:A.
  - apply andb_true_iff in A as [A B]. apply N.leb_le in A. apply N.leb_le in B. split.
    + intros H. assert (E : c - 48 = d) by congruence. lia.
    + intros [H ->]. f_equal. lia.
  - split; [discriminate|]. intros [H ->]. apply andb_false_iff in A as [A|A]; apply N.leb_gt in A; lia.
Qed.
Lemma digit_not_underscore c d : digit_is c d -> c =? 95 = false.
Proof. intros [A ->]. apply N.eqb_neq. lia. Qed.
Lemma digits_more_part s ds : digit_part s = Some ds -> digits_more s = Some ds.
Proof.
  destruct s as [|c s]; [discriminate|]. cbn [digit_part digits_more]. destruct (digit_val c) as [v|] eqn:E; [|discriminate].
  apply digit_val_is in E. rewrite (digit_not_underscore _ _ E). auto.
Qed.
Lemma digits_part s ds : digits s ds -> digit_part s = Some ds.
Proof.
  induction 1 as [c d H|c d s ds H _ IH|c d s ds H _ IH]; cbn [digit_part]; rewrite (proj2 (digit_val_is c d) H).
  - reflexivity.
  - rewrite (digits_more_part _ _ IH). reflexivity.
  - destruct s as [|e s]; [discriminate IH|]. cbn [digits_more digit_part] in *. destruct (digit_val e) as [v|]; [|discriminate].
    destruct (digits_more s) as [w|]; [|discriminate]. cbn in *. congruence.
Qed.
Lemma part_digits : forall n s ds, (List.length s <= n)%nat -> digit_part s = Some ds -> digits s ds.
Proof.
  induction n as [|n IH]; intros s ds L H; (destruct s as [|c s]; [discriminate|cbn in L; try lia]).
  cbn [digit_part] in H. destruct (digit_val c) as [v|] eqn:Ev; [|discriminate]. apply digit_val_is in Ev.
  destruct s as [|e s]; [cbn in H; injection H as <-; constructor; exact Ev|]. cbn [digits_more] in H. destruct (e =? 95) eqn:Ee.
  - apply N.eqb_eq in Ee. subst e. destruct s as [|d s]; [discriminate|]. destruct (digit_val d) as [w|] eqn:Ew; [|discriminate].
    destruct (digits_more s) as [x|] eqn:Ex; [|discriminate]. cbn in H. injection H as <-. apply digits_underscore; [exact Ev|].
    apply IH; [cbn in L; cbn; lia|]. cbn [digit_part]. rewrite Ew, Ex. reflexivity.
  - destruct (digit_val e) as [w|] eqn:Ew; [|discriminate]. destruct (digits_more s) as [x|] eqn:Ex; [|discriminate]. cbn in H. injection H as <-.
    apply digits_next; [exact Ev|]. apply IH; [cbn in L; cbn; lia|]. cbn [digit_part]. rewrite Ew, Ex. reflexivity.
Qed.
Lemma digit_part_digits s ds : digit_part s = Some ds <-> digits s ds.
Proof. split; [apply (part_digits (List.length s)); apply Nat.le_refl|apply digits_part]. Qed.
Lemma decimal_value ds : digits_value ds = decimal ds.
Proof.
  induction ds as [|d ds IH]; [reflexivity|]. change (d :: ds) with ([d] ++ ds)%list. rewrite value_app. cbn [app decimal]. rewrite IH. cbn. reflexivity.
Qed.
Lemma digits_chars s ds : digits s ds -> Forall (fun c => c = 95 \/ exists d, digit_is c d) s.
Proof. induction 1; repeat (apply Forall_cons || apply Forall_nil); eauto. Qed.
Lemma digits_first s ds : digits s ds -> exists c d s', s = c :: s' /\ digit_is c d.
Proof. destruct 1; eauto 6. Qed.
Lemma digits_nonnil s ds : digits s ds -> ds <> []. Proof. destruct 1; discriminate. Qed.

(** * Signs and integers *)
Lemma sign_spec t neg u : sign t = (neg, u) <-> with_sign t neg u.
Proof.
  unfold with_sign. destruct t as [|c t]; cbn [sign].
  - split.
    + intros H. injection H as <- <-. right; right. repeat split; discriminate.
    + intros [[H _]|[[H _]|[<- [-> _]]]]; [discriminate|discriminate|reflexivity].
  - destruct (c =? 45) eqn:A; [apply N.eqb_eq in A; subst c|apply N.eqb_neq in A]; [|destruct (c =? 43) eqn:B; [apply N.eqb_eq in B; subst c|apply N.eqb_neq in B]].
    + split; [intros H; injection H as <- <-; auto|]. intros [[H ->]|[[H _]|[<- [_ H]]]]; [injection H as <-; reflexivity|discriminate|]. destruct (H t) as [X _]. exfalso. apply X. reflexivity.
    + split; [intros H; injection H as <- <-; auto|]. intros [[H _]|[[H ->]|[<- [_ H]]]]; [discriminate|injection H as <-; reflexivity|]. destruct (H t) as [_ X]. exfalso. apply X. reflexivity.
    + split; [intros H; injection H as <- <-; right; right; repeat split; congruence|]. intros [[H _]|[[H _]|[<- [-> _]]]]; congruence.
Qed.
Lemma signed_minus neg n : signed neg n = minus neg (Z.of_N n). Proof. destruct neg; reflexivity. Qed.
Lemma f_int s z : int_of s = Some z <-> int_literal s z.
Proof.
  unfold int_of, int_literal. destruct (sign (strip s)) as [neg u] eqn:E. split.
  - intros H. destruct (digit_part u) as [ds|] eqn:D; [|discriminate]. cbn in H. injection H as <-.
    exists (strip s), neg, u, ds. split; [apply f_strip; reflexivity|]. split; [apply sign_spec; exact E|]. split; [apply digit_part_digits; exact D|].
    rewrite decimal_value. apply signed_minus.
  - intros (t & neg' & u' & ds & T & W & D & ->). apply f_strip in T. rewrite T in E. apply sign_spec in W. rewrite W in E. injection E as <- <-.
    apply digit_part_digits in D. rewrite D. cbn. rewrite decimal_value, signed_minus. reflexivity.
Qed.

(** * Floating-point numbers *)
Lemma break_spec p s : match break p s with
  | (a, None) => s = a /\ Forall (fun c => p c = false) a
  | (a, Some b) => exists c, s = (a ++ c :: b)%list /\ p c = true /\ Forall (fun c => p c = false) a
  end.
Proof.
  induction s as [|c s IH]; [cbn; auto|]. cbn [break]. destruct (p c) eqn:E; [exists c; auto|].
  destruct (break p s) as [a [b|]].
  - destruct IH as (d & -> & Hd & Ha). exists d. repeat split; auto.
  - destruct IH as [-> Ha]. auto.
Qed.
Lemma lower_letter c d : 97 <= d <= 122 -> lower c = d <-> c = d \/ c + 32 = d.
Proof.
  intros Hd. unfold lower. destruct ((65 <=? c) && (c <=? 90)) eqn:A.
  - apply andb_true_iff in A as [A B]. apply N.leb_le in A. apply N.leb_le in B. lia.
  - apply andb_false_iff in A as [A|A]; apply N.leb_gt in A; lia.
Qed.
Definition letters (k : string) : Prop := Forall (fun d => 97 <= d <= 122) (txt k).
Lemma spells_lower u k : letters k -> map lower u = txt k <-> spells u k.
Proof.
  unfold letters, spells. generalize (txt k) as l. induction u as [|c u IH]; intros l H; destruct l as [|d l]; cbn [map].
  - split; [constructor|reflexivity].
  - split; [discriminate|]. intros X. inversion X.
  - split; [discriminate|]. intros X. inversion X.
  - inversion H as [|? ? Hd Hl]; subst. split.
    + intros X. injection X as X1 X2. constructor; [apply lower_letter; auto|]. apply IH; auto.
    + intros X. inversion X as [|? ? ? ? X1 X2]; subst. f_equal; [apply lower_letter; auto|apply IH; auto].
Qed.
Lemma l_inf : letters "inf". Proof. repeat constructor; vm_compute; congruence. Qed.
Lemma l_infinity : letters "infinity". Proof. repeat constructor; vm_compute; congruence. Qed.
Lemma l_nan : letters "nan". Proof. repeat constructor; vm_compute; congruence. Qed.
Definition is_e (c : N) : bool := lower c =? 101.
Lemma is_e_spec c : is_e c = true <-> c = 101 \/ c = 69.
Proof. unfold is_e. rewrite N.eqb_eq, lower_letter by lia. lia. Qed.
Lemma digit_char_plain c : (c = 95 \/ exists d, digit_is c d) -> is_e c = false /\ c =? 46 = false.
Proof.
  intros H. assert (c = 95 \/ 48 <= c <= 57) by (destruct H as [|(d & A & ->)]; lia). split.
  - destruct (is_e c) eqn:E; [|reflexivity]. apply is_e_spec in E. lia.
  - apply N.eqb_neq. lia.
Qed.
Lemma digits_plain s ds : digits s ds -> Forall (fun c => is_e c = false) s /\ Forall (fun c => c =? 46 = false) s.
Proof. intros H. apply digits_chars in H. split; revert H; apply Forall_impl; intros c X; apply digit_char_plain in X; tauto. Qed.
(** the mantissa *)
Lemma mantissa_spec m i f : mantissa m i f <->
  (let '(ip, fp) := break (fun c => c =? 46) m in
   opt_digits ip = Some i /\ opt_digits (match fp with Some f => f | None => [] end) = Some f /\ (i ++ f <> [])%list).
Proof.
  assert (O : forall s ds, digits s ds -> opt_digits s = Some ds).
  { intros s ds H. pose proof (digits_first _ _ H) as (c & d & s' & -> & _). cbn [opt_digits]. apply digit_part_digits. exact H. }
  split.
  - destruct 1 as [s i H|s i H|s i t f H1 H2|t f H].
    + destruct (digits_plain _ _ H) as [_ P]. rewrite break_none by exact P. rewrite (O _ _ H). cbn. pose proof (digits_nonnil _ _ H). rewrite app_nil_r. auto.
    + destruct (digits_plain _ _ H) as [_ P]. rewrite break_at by auto. rewrite (O _ _ H). cbn. pose proof (digits_nonnil _ _ H). rewrite app_nil_r. auto.
    + destruct (digits_plain _ _ H1) as [_ P]. rewrite break_at by auto. rewrite (O _ _ H1), (O _ _ H2). pose proof (digits_nonnil _ _ H1). destruct i; [congruence|]. repeat split; discriminate.
    + cbn [break]. rewrite N.eqb_refl. rewrite (O _ _ H). pose proof (digits_nonnil _ _ H). cbn. auto.
  - pose proof (break_spec (fun c => c =? 46) m) as B. destruct (break _ m) as [ip [fp|]].
    + destruct B as (c & -> & Hc & _). apply N.eqb_eq in Hc. subst c. intros (Hi & Hf & Hn). destruct ip as [|a ip]; destruct fp as [|b fp]; cbn [opt_digits] in Hi, Hf.
      * injection Hi as <-. injection Hf as <-. exfalso; apply Hn; reflexivity.
      * injection Hi as <-. apply mantissa_fraction. apply digit_part_digits. exact Hf.
      * injection Hf as <-. apply mantissa_point. apply digit_part_digits. exact Hi.
      * apply mantissa_both; apply digit_part_digits; auto.
    + destruct B as [-> _]. cbn [opt_digits]. intros (Hi & Hf & Hn). injection Hf as <-. destruct ip as [|a ip]; cbn [opt_digits] in Hi.
      * injection Hi as <-. exfalso; apply Hn; reflexivity.
      * apply mantissa_int. apply digit_part_digits. exact Hi.
Qed.
Lemma mantissa_no_e m i f : mantissa m i f -> Forall (fun c => is_e c = false) m.
Proof.
  destruct 1 as [s i H|s i H|s i t f H1 H2|t f H].
  - apply (digits_plain _ _ H).
  - apply Forall_app. split; [apply (digits_plain _ _ H)|repeat constructor].
  - apply Forall_app. split; [apply (digits_plain _ _ H1)|]. constructor; [reflexivity|apply (digits_plain _ _ H2)].
  - constructor; [reflexivity|apply (digits_plain _ _ H)].
Qed.
Lemma mantissa_first m i f : mantissa m i f -> exists c m', m = c :: m' /\ (c = 46 \/ exists d, digit_is c d).
Proof.
  destruct 1 as [s i H|s i H|s i t f H1 H2|t f H]; try (pose proof (digits_first _ _ H) as (c & d & s' & -> & D)); try (pose proof (digits_first _ _ H1) as (c & d & s' & -> & D)); cbn; eauto 7.
Qed.
Lemma literal_real neg i f z :
  (IZR (signed neg (digits_value (i ++ f))) * powerRZ 10 (z - Z.of_nat (List.length f)))%R = literal_value neg i f z.
Proof.
  unfold literal_value. rewrite value_app, !decimal_value.
  assert (P : IZR (Z.of_N (10 ^ N.of_nat (List.length f))) = (10 ^ List.length f)%R).
  { rewrite N2Z.inj_pow, nat_N_Z. rewrite <- pow_IZR. reflexivity. }
  assert (S : IZR (signed neg (decimal i * 10 ^ N.of_nat (List.length f) + decimal f)) =
    ((if neg then -1 else 1) * (IZR (Z.of_N (decimal i)) * 10 ^ List.length f + IZR (Z.of_N (decimal f))))%R).
  { rewrite <- P. unfold signed. destruct neg; rewrite ?opp_IZR, N2Z.inj_add, N2Z.inj_mul, plus_IZR, mult_IZR; ring. }
  rewrite S. unfold Z.sub. rewrite powerRZ_add by lra. rewrite powerRZ_neg', <- pow_powerRZ.
  assert (10 ^ List.length f <> 0)%R by (apply pow_nonzero; lra). field. auto.
Qed.
Definition number_of (neg : bool) (fl : R -> num) (u : text) : option num :=
    let '(m, e) := break (fun c => lower c =? 101) u in
    let '(ip, fp) := break (fun c => c =? 46) m in
    let fp' := match fp with Some f => f | None => [] end in
    match (match e with
           | None => Some 0%Z
           | Some x => let '(en, ed) := sign x in
                       option_map (fun ds => signed en (digits_value ds)) (digit_part ed)
           end), opt_digits ip, opt_digits fp' with
    | Some ez, Some di, Some df =>
        match (di ++ df)%list with
        | [] => None
        | ds => Some (fl (IZR (signed neg (digits_value ds))
                          * powerRZ 10 (ez - Z.of_nat (List.length df)))%R)
        end
    | _, _, _ => None
    end.
Lemma number_spec neg fl u x : number_of neg fl u = Some x <->
  exists m i f e z, u = (m ++ e)%list /\ mantissa m i f /\ exponent e z /\ x = fl (literal_value neg i f z).
Proof.
  split.
  - unfold number_of. pose proof (break_spec (fun c => lower c =? 101) u) as B. destruct (break _ u) as [m e].
    assert (X : exists es, u = (m ++ es)%list /\ forall ez,
      match e with None => Some 0%Z | Some x => let '(en, ed) := sign x in option_map (fun ds => signed en (digits_value ds)) (digit_part ed) end = Some ez -> exponent es ez).
    { destruct e as [e|].
      - destruct B as (c & -> & Hc & _). exists (c :: e). split; [reflexivity|]. intros ez H. destruct (sign e) as [en ed] eqn:S. apply sign_spec in S.
        destruct (digit_part ed) as [ds|] eqn:D; [|discriminate]. cbn in H. injection H as <-. apply digit_part_digits in D.
        rewrite decimal_value, signed_minus. eapply exponent_some; eauto. apply is_e_spec. exact Hc.
      - destruct B as [-> _]. exists []. split; [rewrite app_nil_r; reflexivity|]. intros ez H. injection H as <-. constructor. }
    destruct X as (es & -> & X). pose proof (mantissa_spec m) as M. destruct (break (fun c => c =? 46) m) as [ip fp].
    match goal with |- (match ?a with _ => _ end = _ -> _) => destruct a as [ez|] eqn:EZ; [|discriminate] end. specialize (X ez eq_refl).
    destruct (opt_digits ip) as [di|] eqn:DI; [|discriminate]. destruct (opt_digits (match fp with Some f => f | None => [] end)) as [df|] eqn:DF; [|discriminate].
    intros H. exists m, di, df, es, ez. split; [reflexivity|].
    assert (Y : (di ++ df)%list <> [] /\ x = fl (literal_value neg di df ez)).
    { rewrite <- literal_real. revert H. destruct (di ++ df)%list; [intros H; discriminate H|]. intros H. split; [discriminate|congruence]. }
    destruct Y as [Y ->]. split; [apply M; auto|]. split; [exact X|reflexivity].
  - intros (m & i & f & e & z & -> & M & E & ->). unfold number_of. pose proof (mantissa_no_e _ _ _ M) as NE.
    assert (B : break (fun c => lower c =? 101) (m ++ e) = match e with [] => (m, None) | _ :: e' => (m, Some e') end).
    { change (fun c => lower c =? 101) with is_e. destruct E as [|c t neg' u ds Hc _ _]; [rewrite app_nil_r; apply break_none; exact NE|]. apply break_at; [exact NE|]. apply is_e_spec. exact Hc. }
    rewrite B. apply mantissa_spec in M. destruct E as [|c t neg' u ds Hc W D].
    + destruct (break (fun c => c =? 46) m) as [ip fp]. destruct M as (Hi & Hf & Hn). rewrite Hi, Hf. rewrite <- literal_real. destruct (i ++ f)%list; [congruence|reflexivity].
    + destruct (break (fun c => c =? 46) m) as [ip fp]. destruct M as (Hi & Hf & Hn). rewrite Hi, Hf. apply sign_spec in W. rewrite W. apply digit_part_digits in D. rewrite D. cbn [option_map].
      rewrite decimal_value, signed_minus. rewrite <- literal_real. destruct (i ++ f)%list; [congruence|reflexivity].
Qed.
Lemma float_unfold fl s : float_of fl s =
  let '(neg, u) := sign (strip s) in
  if teqb (map lower u) (txt "inf") || teqb (map lower u) (txt "infinity") then Some (Inf neg)
  else if teqb (map lower u) (txt "nan") then Some NaN else number_of neg fl u.
Proof. reflexivity. Qed.
Lemma unsigned_spec neg fl u x :
  (if teqb (map lower u) (txt "inf") || teqb (map lower u) (txt "infinity") then Some (Inf neg)
   else if teqb (map lower u) (txt "nan") then Some NaN else number_of neg fl u) = Some x <-> unsigned_literal fl neg u x.
Proof.
  assert (K : forall k, letters k -> teqb (map lower u) (txt k) = true <-> spells u k).
  { intros k L. rewrite teqb_true. apply spells_lower. exact L. }
  split.
  - destruct (teqb (map lower u) (txt "inf")) eqn:A; [apply (K _ l_inf) in A; cbn; intros H; injection H as <-; apply literal_inf; auto|].
    destruct (teqb (map lower u) (txt "infinity")) eqn:B; [apply (K _ l_infinity) in B; cbn; intros H; injection H as <-; apply literal_inf; auto|]. cbn [orb].
    destruct (teqb (map lower u) (txt "nan")) eqn:C; [apply (K _ l_nan) in C; intros H; injection H as <-; apply literal_nan; auto|].
    intros H. apply number_spec in H as (m & i & f & e & z & -> & M & E & ->). apply literal_number; auto.
  - destruct 1 as [u [H|H]|u H|m i f e z M E].
    + apply (K _ l_inf) in H. rewrite H. reflexivity.
    + apply (K _ l_infinity) in H. rewrite H, orb_true_r. reflexivity.
    + pose proof H as H'. apply (K _ l_nan) in H. rewrite H. apply teqb_true in H. rewrite H. reflexivity.
    + pose proof (mantissa_first _ _ _ M) as (c & m' & Em & Hc).
      assert (Z : forall d l, 97 <= d <= 122 -> teqb (map lower (m ++ e)) (d :: l) = false).
      { intros d l Hd. apply teqb_false. rewrite Em. cbn. intros X. injection X as X _. apply lower_letter in X; [|exact Hd]. destruct Hc as [->|(v & Hv & ->)]; lia. }
      change (txt "inf") with (105 :: txt "nf"). change (txt "infinity") with (105 :: txt "nfinity"). change (txt "nan") with (110 :: txt "an"). rewrite !Z by lia. cbn [orb].
      apply number_spec. exists m, i, f, e, z. auto.
Qed.
Lemma f_float fl s x : float_of fl s = Some x <-> float_literal fl s x.
Proof.
  rewrite float_unfold. unfold float_literal. destruct (sign (strip s)) as [neg u] eqn:S. rewrite unsigned_spec. split.
  - intros H. exists (strip s), neg, u. split; [apply f_strip; reflexivity|]. split; [apply sign_spec; exact S|exact H].
  - intros (t & neg' & u' & T & W & H). apply f_strip in T. rewrite T in S. apply sign_spec in W. rewrite W in S. injection S as <- <-. exact H.
Qed.
Lemma f_starts l c : 97 <= c <= 122 -> starts l c <-> exists t, l = c :: t \/ l = c - 32 :: t.
Proof.
  intros Hc. unfold starts. split.
  - intros (d & t & -> & H). apply lower_letter in H; [|exact Hc]. exists t. destruct H as [->|<-]; [left; reflexivity|right]. f_equal. lia.
  - intros (t & [->| ->]); eexists _, t; (split; [reflexivity|]); apply lower_letter; auto; lia.
Qed.
