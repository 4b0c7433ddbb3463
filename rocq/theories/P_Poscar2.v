(** Readers of structure and trajectory files against the line-by-line format. *)
From Coq Require Import String Ascii ZArith NArith Reals Lra Lia Psatz Bool Arith List.
From Verif Require Import Base LinAlg Constants M_Validate M_Spectrum M_Text M_Poscar S_Spectrum S_Text P_Text P_Poscar.
Import ListNotations.
Local Open Scope N_scope.

Lemma rbind_ok {A B} (x : res A) (f : A -> res B) y : rbind x f = Ok y <-> exists a, x = Ok a /\ f a = Ok y.
Proof. destruct x as [a|e]; cbn [rbind]; split; [eauto|intros (? & E & H); injection E as <-; auto|discriminate|intros (? & E & _); discriminate]. Qed.

Lemma line_S k s : line (S k) s = line k (after_line s).
Proof. reflexivity. Qed.
Lemma line_after k j s : line k (after_lines j s) = line (j + k) s.
Proof. revert s. induction j; intros s; auto. cbn [after_lines Nat.add]. rewrite IHj. reflexivity. Qed.
Lemma after_after k j s : after_lines k (after_lines j s) = after_lines (j + k) s.
Proof. revert s. induction j; intros s; auto. cbn [after_lines Nat.add]. apply IHj. Qed.

Lemma head_line s c t : first_line s = c :: t -> exists t', fst (readline s) = c :: t'.
Proof. intros H. rewrite readline_spec. cbn [fst]. rewrite H. destruct (existsb _ _); cbn [app]; eauto. Qed.
Lemma head_read s c t : fst (readline s) = c :: t -> c <> 10 -> exists t', first_line s = c :: t'.
Proof.
  rewrite readline_spec. cbn [fst]. intros H N. destruct (first_line s) as [|d l]; destruct (existsb _ _); cbn [app] in H; try discriminate; injection H as <- H; subst; eauto. congruence.
Qed.
Lemma lower_letter c x : lower c = x -> 97 <= x <= 122 -> c = x \/ c = x - 32.
Proof. unfold lower. destruct (N.leb_spec 65 c); destruct (N.leb_spec c 90); cbn [andb]; lia. Qed.
Lemma letter_not_space c x : lower c = x -> x = 115 \/ x = 99 \/ x = 100 -> is_space c = false /\ c <> 10.
Proof. intros H X. apply lower_letter in H; [|lia]. destruct X as [X|[X|X]]; subst x; destruct H as [H|H]; subst c; split; (reflexivity || discriminate). Qed.
Lemma starts_read s x : x = 115 \/ x = 99 \/ x = 100 ->
  (starts (first_line s) x <-> exists c t, fst (readline s) = c :: t /\ lower c = x).
Proof.
  intros X. split.
  - intros (d & t & H & L). destruct (head_line _ _ _ H) as (t' & H'). eauto.
  - intros (c & t & H & L). destruct (letter_not_space c x L X) as [_ N]. destruct (head_read _ _ _ H N) as (t' & H'). exists c, t'. auto.
Qed.

(** * Rows *)
Lemma floats_three E ws a b c : floats E (firstn 3 ws) = Some [a; b; c] <->
  exists wa wb wc ws', ws = wa :: wb :: wc :: ws' /\ float_of (e_fl E) wa = Some a /\ float_of (e_fl E) wb = Some b /\ float_of (e_fl E) wc = Some c.
Proof.
  split.
  - intros H. destruct ws as [|wa [|wb [|wc ws']]]; cbn [firstn floats] in H; try discriminate;
      repeat match type of H with context [float_of ?f ?w] => destruct (float_of f w) eqn:?; cbn [option_map] in H; try discriminate end.
    injection H as -> -> ->. exists wa, wb, wc, ws'. auto.
  - intros (wa & wb & wc & ws' & -> & A & B & C). cbn [firstn floats]. rewrite A, B, C. reflexivity.
Qed.
Lemma floats_length E ws l : floats E ws = Some l -> List.length l = List.length ws.
Proof.
  revert l. induction ws as [|w ws IH]; intros l H; cbn [floats] in H; [injection H as <-; auto|].
  destruct (float_of _ w); [|discriminate]. destruct (floats E ws); [|discriminate]. injection H as <-. simpl. f_equal. auto.
Qed.
Lemma read_row_ok E msg s v r : read_row E msg s = Ok (v, r) <-> row_at E s 0 v /\ r = after_line s.
Proof.
  unfold read_row, row_at. change (line 0 s) with (first_line s). rewrite <- split_readline, <- snd_readline.
  destruct (readline s) as [l t]. cbn [fst snd].
  destruct (floats E (firstn 3 (split l))) as [[|a [|b [|c [|d fs]]]]|] eqn:F; unfold invalid;
    try (split; [discriminate|]; intros ((wa & wb & wc & ws' & E0 & A & B & C) & _);
         assert (X : floats E (firstn 3 (split l)) = Some [nx v; ny v; nz v]) by (apply floats_three; exists wa, wb, wc, ws'; auto); congruence).
  split.
  - intros H. injection H as <- <-. cbn [nx ny nz]. split; auto. apply floats_three in F. auto.
  - intros ((wa & wb & wc & ws' & E0 & A & B & C) & ->).
    assert (X : floats E (firstn 3 (split l)) = Some [nx v; ny v; nz v]) by (apply floats_three; exists wa, wb, wc, ws'; auto).
    rewrite X in F. injection F as <- <- <-. destruct v. reflexivity.
Qed.
Lemma read_row_err E msg s e : read_row E msg s = Err e -> (~ exists v, row_at E s 0 v) /\ e = InvalidFileException (txt msg ++ fst (readline s)).
Proof.
  intros H. split.
  - intros (v & R). assert (read_row E msg s = Ok (v, after_line s)) by (apply read_row_ok; auto). congruence.
  - unfold read_row in H. destruct (readline s) as [l t]. unfold invalid in H. cbn [fst].
    destruct (floats E _) as [[|a [|b [|c [|d fs]]]]|]; congruence.
Qed.
Lemma rows_at_cons E s k v l : rows_at E s k (v :: l) <-> row_at E s k v /\ rows_at E s (S k) l.
Proof.
  unfold rows_at. split.
  - intros H. split; [specialize (H 0%nat v eq_refl); rewrite Nat.add_0_r in H; auto|].
    intros i w Hi. specialize (H (S i) w Hi). replace (S k + i)%nat with (k + S i)%nat by lia. auto.
  - intros [A B] [|i] w Hi; [injection Hi as <-; rewrite Nat.add_0_r; auto|]. specialize (B i w Hi). replace (k + S i)%nat with (S k + i)%nat by lia. auto.
Qed.
Lemma row_at_after E s k j v : row_at E (after_lines j s) k v <-> row_at E s (j + k) v.
Proof. unfold row_at. rewrite line_after. reflexivity. Qed.
Lemma rows_at_after E s k j l : rows_at E (after_lines j s) k l <-> rows_at E s (j + k) l.
Proof.
  unfold rows_at. split; intros H i v Hi; specialize (H i v Hi); pose proof (row_at_after E s (k + i) j v);
    replace (j + k + i)%nat with (j + (k + i))%nat in * by lia; tauto.
Qed.
Lemma read_rows_ok E msg n : forall s l r,
  read_rows E msg n s = Ok (l, r) <-> List.length l = n /\ rows_at E s 0 l /\ r = after_lines n s.
Proof.
  induction n as [|n IH]; intros s l r; cbn [read_rows].
  - split; [intros H; injection H as <- <-; repeat split; auto; intros [|i] v H; discriminate|].
    intros (L & _ & ->). destruct l; [reflexivity|discriminate].
  - rewrite rbind_ok. split.
    + intros ((v & s1) & R & H). apply read_row_ok in R as [R ->]. apply rbind_ok in H as ((vs & s2) & H & X).
      apply IH in H as (L & A & ->). injection X as <- <-. simpl. repeat split; auto.
      apply rows_at_cons. split; [exact R|exact A].
    + intros (L & A & ->). destruct l as [|v vs]; [discriminate|]. apply rows_at_cons in A as [A1 A2].
      exists (v, after_line s). split; [apply read_row_ok; auto|]. cbv beta iota. apply rbind_ok.
      exists (vs, after_lines n (after_line s)). split; [|reflexivity]. apply IH. repeat split; auto.
Qed.
Lemma read_rows_err E msg n : forall s e, read_rows E msg n s = Err e ->
  exists j rows, (j < n)%nat /\ List.length rows = j /\ rows_at E s 0 rows /\ (~ exists v, row_at E s j v) /\
    e = InvalidFileException (txt msg ++ fst (readline (after_lines j s))).
Proof.
  induction n as [|n IH]; intros s e H; cbn [read_rows] in H; [discriminate|].
  destruct (read_row E msg s) as [[v s1]|e'] eqn:R; cbn [rbind] in H.
  - apply read_row_ok in R as [R ->]. destruct (read_rows E msg n (after_line s)) as [[vs s2]|e''] eqn:RR; cbn [rbind] in H; [discriminate|].
    injection H as <-. destruct (IH _ _ RR) as (j & rows & A & B & C & D & F).
    exists (S j), (v :: rows). split; [lia|]. split; [simpl; lia|]. split; [apply rows_at_cons; split; [exact R|exact C]|]. split; [exact D|exact F].
  - injection H as <-. apply read_row_err in R as [R1 R2]. exists 0%nat, []. split; [lia|]. split; [auto|]. split; [intros [|i] w Hi; discriminate|]. auto.
Qed.
Lemma read_rows_fails E msg n s j rows : (j < n)%nat -> List.length rows = j -> rows_at E s 0 rows -> (~ exists v, row_at E s j v) ->
  read_rows E msg n s = Err (InvalidFileException (txt msg ++ fst (readline (after_lines j s)))).
Proof.
  revert s j rows. induction n as [|n IH]; intros s j rows L LR RA NR; [lia|]. cbn [read_rows]. destruct rows as [|v rows].
  - simpl in LR. subst j. destruct (read_row E msg s) as [[v s1]|e] eqn:R.
    + exfalso. apply NR. exists v. apply read_row_ok in R. tauto.
    + apply read_row_err in R as [_ ->]. reflexivity.
  - destruct j; [discriminate|]. apply rows_at_cons in RA as [R1 R2].
    rewrite (proj2 (read_row_ok E msg s v (after_line s))) by auto. cbn [rbind].
    rewrite (IH (after_line s) j rows); [reflexivity|lia|simpl in LR; lia|exact R2|exact NR].
Qed.

(** * The header *)
Lemma read_lattice_ok E s lat r : read_lattice E s = Ok (lat, r) <->
  exists scale raw, float_of (e_fl E) (line 1 s) = Some scale /\ List.length raw = 3%nat /\ rows_at E s 2 raw /\
    lat = map (n3_scale scale) raw /\ r = after_lines 5 s.
Proof.
  unfold read_lattice. pose proof (snd_readline s) as S1. destruct (readline s) as [l0 s1]. cbn [snd] in S1. subst s1.
  pose proof (snd_readline (after_line s)) as S2. pose proof (strip_readline (after_line s)) as S3.
  destruct (readline (after_line s)) as [l1 s2]. cbn [fst snd] in *. subst s2.
  rewrite (float_of_strip _ _ _ S3). change (first_line (after_line s)) with (line 1 s).
  destruct (float_of (e_fl E) (line 1 s)) as [scale|].
  2: { unfold invalid. split; [discriminate|]. intros (? & ? & H & _). discriminate. }
  rewrite rbind_ok. change (after_line (after_line s)) with (after_lines 2 s). split.
  - intros ((raw & s3) & H & X). apply read_rows_ok in H as (A & B & ->). apply rows_at_after in B. exists scale, raw. injection X as <- <-.
    repeat split; auto.
  - intros (sc & raw & H & A & B & -> & ->). injection H as <-. exists (raw, after_lines 5 s). split; [|reflexivity].
    apply read_rows_ok. split; [auto|]. split; [apply (rows_at_after E s 0 2); exact B|reflexivity].
Qed.
Lemma read_lattice_err E s e : read_lattice E s = Err e -> exists m, e = InvalidFileException m.
Proof.
  unfold read_lattice. destruct (readline s) as [l0 s1]. destruct (readline s1) as [l1 s2]. destruct (float_of _ l1); [|unfold invalid; intros H; injection H as <-; eauto].
  destruct (read_rows E _ 3 s2) as [[raw s3]|e'] eqn:R; cbn [rbind]; intros H; [discriminate|]. injection H as <-.
  apply read_rows_err in R as (j & rows & _ & _ & _ & _ & ->). eauto.
Qed.

(** the symbol table is one-to-one *)
Lemma table_names_check : forallb (fun e => match symbol_number (txt (fst e)) with Some z => Z.eqb z (snd e) | None => false end) atomic_numbers = true.
Proof. vm_compute. reflexivity. Qed.
Lemma symbol_number_spec w z : symbol_number w = Some z <-> exists name, In (name, z) atomic_numbers /\ w = txt name.
Proof.
  split.
  - unfold symbol_number. destruct (find _ _) as [[n z']|] eqn:F; [|discriminate]. intros H. injection H as <-.
    apply find_some in F as [I Q]. apply teqb_true in Q. cbn [fst snd] in *. eauto.
  - intros (n & I & ->). pose proof table_names_check as T. rewrite forallb_forall in T. specialize (T _ I). cbn [fst snd] in T.
    destruct (symbol_number (txt n)); [|discriminate]. apply Z.eqb_eq in T. congruence.
Qed.
Lemma ints_spec ws cs : ints ws = Some cs <-> Forall2 (fun w c => int_of w = Some c) ws cs.
Proof.
  revert cs. induction ws as [|w ws IH]; intros cs; cbn [ints].
  - split; [intros H; injection H as <-; constructor|]. inversion 1; auto.
  - split.
    + intros H. destruct (int_of w) eqn:I; [|discriminate]. destruct (ints ws) eqn:J; [|discriminate]. injection H as <-. constructor; auto. apply IH; auto.
    + inversion 1; subst. rewrite H2. rewrite (proj2 (IH l')) by auto. reflexivity.
Qed.

Lemma numbers_of_app a b : numbers_of (a ++ b) = (numbers_of a ++ numbers_of b)%list.
Proof. apply map_app. Qed.
Lemma numbers_repeat w z k : symbol_number w = Some z -> numbers_of (repeat w k) = repeat z k.
Proof. intros H. unfold numbers_of. induction k; simpl; auto. rewrite H. congruence. Qed.
Lemma numbers_expand ws els cs : Forall2 (fun w z => symbol_number w = Some z) ws els -> 
  numbers_of (flat_map (fun p => repeat (fst p) (Z.to_nat (snd p))) (combine ws cs)) =
  concat (map (fun p => repeat (fst p) (Z.to_nat (snd p))) (combine els cs)).
Proof.
  intros H. revert cs. induction H; intros cs; auto. destruct cs as [|c cs]; auto.
  cbn [combine flat_map map concat fst snd]. rewrite numbers_of_app, IHForall2, (numbers_repeat x y) by auto. reflexivity.
Qed.
Lemma find_none_all ws : find (fun w => match symbol_number w with Some _ => false | None => true end) ws = None ->
  exists els, Forall2 (fun w z => symbol_number w = Some z) ws els.
Proof.
  induction ws as [|w ws IH]; cbn [find]; intros H; [exists []; constructor|].
  destruct (symbol_number w) as [z|] eqn:S; [|discriminate]. destruct (IH H) as (els & F). exists (z :: els). constructor; auto.
Qed.

Lemma F2_impl {A B} (P Q : A -> B -> Prop) l m : (forall a b, P a b -> Q a b) -> Forall2 P l m -> Forall2 Q l m.
Proof. intros H. induction 1; constructor; auto. Qed.
Lemma F2_len {A B} (P : A -> B -> Prop) l m : Forall2 P l m -> List.length l = List.length m.
Proof. induction 1; simpl; auto. Qed.

Lemma read_symbols_ok s numbers r :
  (exists symbols, read_atomic_symbols s = Ok (symbols, r) /\ numbers = numbers_of symbols) <->
  species_at s 0 numbers /\ r = after_lines 2 s.
Proof.
  unfold read_atomic_symbols, species_at.
  pose proof (split_readline s) as P0. pose proof (snd_readline s) as S0. destruct (readline s) as [l0 s1]. cbn [fst snd] in *. subst s1.
  change (line 0 s) with (first_line s). rewrite <- P0.
  pose proof (split_readline (after_line s)) as P1. pose proof (snd_readline (after_line s)) as S1.
  destruct (readline (after_line s)) as [l1 s2]. cbn [fst snd] in *. subst s2.
  change (line 1 s) with (first_line (after_line s)). rewrite <- P1.
  set (ws := split l0). set (cw := split l1). split.
  - intros (symbols & H & ->). destruct ws as [|w0 ws'] eqn:W; [discriminate|]. rewrite <- W in *.
    destruct (find _ ws) eqn:F; [discriminate|]. apply find_none_all in F as (els & F).
    destruct (negb _) eqn:L; [discriminate|]. apply negb_false_iff, Nat.eqb_eq in L.
    destruct (ints cw) as [cs|] eqn:I; [|discriminate]. injection H as <- <-. split; auto.
    apply ints_spec in I. pose proof (F2_len _ _ _ I). pose proof (F2_len _ _ _ F).
    exists els, cs. repeat split; auto.
    + intros ->. rewrite W in *. simpl in *. discriminate.
    + lia.
    + eapply F2_impl; [|exact F]. intros a b. apply symbol_number_spec.
    + apply numbers_expand. auto.
  - intros ((els & cs & NE & L & F & I & ->) & ->).
    assert (F' : Forall2 (fun w z => symbol_number w = Some z) ws els) by (eapply F2_impl; [|exact F]; intros a b; apply symbol_number_spec).
    pose proof (F2_len _ _ _ I). pose proof (F2_len _ _ _ F).
    exists (flat_map (fun p => repeat (fst p) (Z.to_nat (snd p))) (combine ws cs)).
    destruct ws as [|w0 ws'] eqn:W; [simpl in *; destruct els; [congruence|discriminate]|]. rewrite <- W in *.
    assert (FN : find (fun w => match symbol_number w with Some _ => false | None => true end) ws = None).
    { clear -F'. induction F'; cbn [find]; auto. rewrite H. auto. }
    rewrite FN. replace (Nat.eqb (List.length cw) (List.length ws)) with true by (symmetry; apply Nat.eqb_eq; lia). cbn [negb].
    rewrite (proj2 (ints_spec cw cs)) by auto. split; auto. symmetry. apply numbers_expand. auto.
Qed.
Lemma read_symbols_err s e : read_atomic_symbols s = Err e -> exists m, e = InvalidFileException m.
Proof.
  unfold read_atomic_symbols. destruct (readline s) as [l0 s1]. destruct (split l0); [intros H; injection H as <-; eauto|].
  destruct (find _ _); [intros H; injection H as <-; eauto|]. destruct (readline s1) as [l1 s2]. destruct (negb _); [intros H; injection H as <-; eauto|].
  destruct (ints _); [discriminate|intros H; injection H as <-; eauto].
Qed.

(** * One configuration *)
Lemma read_mode_ok s cart r : read_mode s = Ok (cart, r) <->
  exists k, mode_line s k /\ starts (line k s) (if cart then 99 else 100) /\ r = after_lines (S k) s.
Proof.
  unfold read_mode. pose proof (snd_readline s) as S0.
  pose proof (fun x X => starts_read s x X) as ST.
  assert (HS : forall x, starts (first_line s) x <-> exists t, first_line s = t /\ starts t x) by (intros; split; [eauto|intros (? & <- & ?); auto]).
  destruct (readline s) as [l0 s1]. cbn [fst snd] in *. subst s1.
  destruct l0 as [|c l0].
  { unfold invalid. split; [discriminate|]. intros (k & [[-> N]|[-> N]] & H & _).
    - apply (ST (if cart then 99 else 100)) in H as (c & t & E & _); [discriminate|destruct cart; auto].
    - apply (ST 115) in N as (c & t & E & _); [discriminate|auto]. }
  destruct (is_space c) eqn:SP.
  { unfold invalid. split; [discriminate|]. intros (k & [[-> N]|[-> N]] & H & _).
    - apply (ST (if cart then 99 else 100)) in H as (c' & t & E & L); [|destruct cart; auto]. injection E as <- <-.
      apply letter_not_space in L as [L _]; [congruence|destruct cart; auto].
    - apply (ST 115) in N as (c' & t & E & L); [|auto]. injection E as <- <-. apply letter_not_space in L as [L _]; [congruence|auto]. }
  destruct (N.eqb_spec (lower c) 115) as [E1|E1].
  - assert (SEL : starts (line 0 s) 115) by (apply (ST 115); eauto).
    pose proof (snd_readline (after_line s)) as S1. pose proof (fun x X => starts_read (after_line s) x X) as ST1.
    destruct (readline (after_line s)) as [l1 s2]. cbn [fst snd] in *. subst s2.
    destruct l1 as [|c1 l1].
    { split; [discriminate|]. intros (k & [[-> N]|[-> N]] & H & _); [contradiction|].
      apply (ST1 (if cart then 99 else 100)) in H as (c' & t & E & L); [discriminate|destruct cart; auto]. }
    destruct (N.eqb_spec (lower c1) 99) as [E2|E2]; [|destruct (N.eqb_spec (lower c1) 100) as [E3|E3]].
    + split.
      * intros H. injection H as <- <-. exists 1%nat. repeat split; auto; [right; auto|]. apply (ST1 99); eauto.
      * intros (k & [[-> N]|[-> N]] & H & ->); [contradiction|]. destruct cart; auto.
        apply (ST1 100) in H as (c' & t & E & L); [|auto]. injection E as <- <-. congruence.
    + split.
      * intros H. injection H as <- <-. exists 1%nat. repeat split; auto; [right; auto|]. apply (ST1 100); eauto.
      * intros (k & [[-> N]|[-> N]] & H & ->); [contradiction|]. destruct cart; auto.
        apply (ST1 99) in H as (c' & t & E & L); [|auto]. injection E as <- <-. congruence.
    + unfold invalid. split; [discriminate|]. intros (k & [[-> N]|[-> N]] & H & ->); [contradiction|].
      apply (ST1 (if cart then 99 else 100)) in H as (c' & t & E & L); [|destruct cart; auto]. injection E as <- <-. destruct cart; congruence.
  - assert (SEL : ~ starts (line 0 s) 115) by (intros H; apply (ST 115) in H as (c' & t & E & L); auto; injection E as <- <-; congruence).
    destruct (N.eqb_spec (lower c) 99) as [E2|E2]; [|destruct (N.eqb_spec (lower c) 100) as [E3|E3]].
    + split.
      * intros H. injection H as <- <-. exists 0%nat. repeat split; auto; [left; auto|]. apply (ST 99); eauto.
      * intros (k & [[-> N]|[-> N]] & H & ->); [|contradiction]. destruct cart; auto.
        apply (ST 100) in H as (c' & t & E & L); [|auto]. injection E as <- <-. congruence.
    + split.
      * intros H. injection H as <- <-. exists 0%nat. repeat split; auto; [left; auto|]. apply (ST 100); eauto.
      * intros (k & [[-> N]|[-> N]] & H & ->); [|contradiction]. destruct cart; auto.
        apply (ST 99) in H as (c' & t & E & L); [|auto]. injection E as <- <-. congruence.
    + unfold invalid. split; [discriminate|]. intros (k & [[-> N]|[-> N]] & H & ->); [|contradiction].
      apply (ST (if cart then 99 else 100)) in H as (c' & t & E & L); [|destruct cart; auto]. injection E as <- <-. destruct cart; congruence.
Qed.

Lemma read_positions_from_ok E lattice n s p s' :
  read_positions_from E lattice n s = Ok (p, s') <-> configuration E lattice n s p s'.
Proof.
  unfold read_positions_from, configuration. rewrite rbind_ok. split.
  - intros ((cart & s1) & M & H). apply read_mode_ok in M as (k & MK & ST & ->).
    apply rbind_ok in H as ((rows & s2) & R & H). apply read_rows_ok in R as (L & RA & ->). apply rows_at_after in RA. rewrite Nat.add_0_r in RA.
    rewrite after_after in H. exists k, rows. destruct cart.
    + apply rbind_ok in H as (i & I & H). destruct rows as [|r0 rows]; [discriminate|]. injection H as <- <-.
      repeat split; auto. right. repeat split; auto; [discriminate|]. exists i. auto.
    + injection H as <- <-. repeat split; auto.
  - intros (k & rows & MK & L & RA & -> & [(ST & ->)|(ST & NE & i & I & ->)]).
    + exists (false, after_lines (S k) s). split; [apply read_mode_ok; eauto|]. cbv iota beta. apply rbind_ok.
      exists (rows, after_lines (S k + n) s). split; [|reflexivity]. apply read_rows_ok. rewrite after_after. repeat split; auto.
      apply rows_at_after. rewrite Nat.add_0_r. auto.
    + exists (true, after_lines (S k) s). split; [apply read_mode_ok; eauto|]. cbv iota beta. apply rbind_ok.
      exists (rows, after_lines (S k + n) s). split.
      * apply read_rows_ok. rewrite after_after. repeat split; auto. apply rows_at_after. rewrite Nat.add_0_r. auto.
      * cbv iota beta. rewrite I. cbn [rbind]. destruct rows; [congruence|reflexivity].
Qed.

(** * Whole files *)
Lemma f_C50_format E content lat numbers p :
  read_structure E content = Ok (lat, numbers, p) <->
  header_of E (universal content) lat numbers /\
  exists rest, configuration E lat (List.length numbers) (after_lines 7 (universal content)) p rest.
Proof.
  set (u := universal content). unfold read_structure. fold u. rewrite rbind_ok. split.
  - intros ((lat' & s1) & RL & H). apply read_lattice_ok in RL as (scale & raw & A & B & C & -> & ->).
    apply rbind_ok in H as ((symbols & s2) & RS & H). apply rbind_ok in H as ((p' & s3) & RP & X). injection X as <- <- <-.
    assert (Q : species_at (after_lines 5 u) 0 (numbers_of symbols) /\ s2 = after_lines 2 (after_lines 5 u)) by (apply read_symbols_ok; eauto).
    destruct Q as [Q ->]. rewrite after_after in RP. apply read_positions_from_ok in RP.
    replace (List.length (numbers_of symbols)) with (List.length symbols) by (unfold numbers_of; rewrite map_length; auto).
    split; eauto. exists scale, raw. repeat split; auto.
  - intros ((scale & raw & A & B & C & D & Q) & rest & K).
    exists (lat, after_lines 5 u). split; [apply read_lattice_ok; exists scale, raw; auto|]. cbv iota beta.
    assert (Q' : species_at (after_lines 5 u) 0 numbers) by (unfold species_at in *; rewrite !line_after; exact Q).
    destruct (proj2 (read_symbols_ok (after_lines 5 u) numbers _) (conj Q' eq_refl)) as (symbols & RS & ->).
    apply rbind_ok. exists (symbols, after_lines 2 (after_lines 5 u)). split; auto. cbv iota beta. apply rbind_ok. exists (p, rest). split; [|reflexivity].
    apply read_positions_from_ok. unfold numbers_of in K. rewrite map_length in K. rewrite after_after. exact K.
Qed.

Lemma f_C50_positions E content :
  read_positions E content = rmap (fun r => snd r) (read_structure E content).
Proof.
  unfold read_positions, read_structure. destruct (read_lattice _ _) as [[l s1]|e]; cbn [rbind rmap]; auto.
  destruct (read_atomic_symbols s1) as [[sy s2]|e]; cbn [rbind rmap]; auto.
  destruct (read_positions_from _ _ _ _) as [[p s3]|e]; cbn [rbind rmap]; auto.
Qed.

Lemma np_inv_err E lat e : np_inv E lat = Err e -> e = LinAlgError /\ forall m, finite33 lat = Some m -> mdet m = 0%R.
Proof.
  unfold np_inv. destruct (finite33 lat) as [m|].
  - unfold minv. destruct (Req_EM_T (mdet m) 0); cbn [rmap]; intros H; [|discriminate]. injection H as <-. split; auto. intros m' X. injection X as <-. auto.
  - destruct (e_inv E lat); intros H; [discriminate|]. injection H as <-. split; auto. discriminate.
Qed.

Lemma read_mode_err s e : read_mode s = Err e ->
  (exists m, e = InvalidFileException m) \/ (e = IndexError /\ starts (line 0 s) 115 /\ after_lines 1 s = []).
Proof.
  unfold read_mode. pose proof (snd_readline s) as S0. pose proof (starts_read s 115 (or_introl eq_refl)) as ST.
  destruct (readline s) as [l0 s1]. cbn [fst snd] in *. subst s1.
  destruct l0 as [|c l0]; [intros H; injection H as <-; left; eexists; reflexivity|].
  destruct (is_space c); [intros H; injection H as <-; left; eexists; reflexivity|].
  destruct (N.eqb_spec (lower c) 115).
  - pose proof (readline_nil (after_line s)) as RN. destruct (readline (after_line s)) as [l1 s2]. cbn [fst] in RN. destruct l1 as [|c1 l1].
    + intros H. injection H as <-. right. repeat split; [apply ST; eauto|]. apply RN. auto.
    + destruct (_ =? 99); [discriminate|]. destruct (_ =? 100); [discriminate|]. intros H; injection H as <-; left; eexists; reflexivity.
  - destruct (_ =? 99); [discriminate|]. destruct (_ =? 100); [discriminate|]. intros H; injection H as <-; left; eexists; reflexivity.
Qed.

Definition outcome_ok (lat : list n3) (n : nat) (s : text) (e : exn) : Prop :=
  match e with
  | InvalidFileException _ => True
  | IndexError => starts (line 0 s) 115 /\ after_lines 1 s = []
  | LinAlgError => exists k, mode_line s k /\ starts (line k s) 99 /\ forall m, finite33 lat = Some m -> mdet m = 0%R
  | ValueError => n = 0%nat /\ exists k, mode_line s k /\ starts (line k s) 99
  | _ => False
  end.
Lemma read_positions_from_err E lat n s e : read_positions_from E lat n s = Err e -> outcome_ok lat n s e.
Proof.
  unfold read_positions_from. destruct (read_mode s) as [[cart s1]|e1] eqn:M; cbn [rbind].
  2: { intros H. injection H as <-. apply read_mode_err in M as [(m & ->)|(-> & A & B)]; simpl; auto. }
  apply read_mode_ok in M as (k & MK & ST & ->).
  destruct (read_rows _ _ _ _) as [[rows s2]|e2] eqn:R; cbn [rbind].
  2: { intros H. injection H as <-. apply read_rows_err in R as (j & rows & _ & _ & _ & _ & ->). exact I. }
  destruct cart; [|discriminate]. destruct (np_inv E lat) as [i|e3] eqn:NI; cbn [rbind].
  - destruct rows; [|discriminate]. intros H. injection H as <-. apply read_rows_ok in R as (L & _). split; [auto|]. eauto.
  - intros H. injection H as <-. apply np_inv_err in NI as [-> D]. exists k. auto.
Qed.

Lemma f_C50_failure E content e :
  read_structure E content = Err e ->
  match e with
  | InvalidFileException _ => True
  | IndexError =>
      starts (line 7 (universal content)) 115 /\ after_lines 8 (universal content) = []
  | LinAlgError => exists lat numbers k, header_of E (universal content) lat numbers /\
      mode_line (after_lines 7 (universal content)) k /\ starts (line (7 + k) (universal content)) 99 /\
      forall m, finite33 lat = Some m -> mdet m = 0%R
  | ValueError => exists lat k, header_of E (universal content) lat [] /\
      mode_line (after_lines 7 (universal content)) k /\ starts (line (7 + k) (universal content)) 99
  | _ => False
  end.
Proof.
  set (u := universal content). unfold read_structure. fold u.
  destruct (read_lattice E u) as [[lat s1]|e1] eqn:RL; cbn [rbind].
  2: { intros H. injection H as <-. apply read_lattice_err in RL as (m & ->). exact I. }
  destruct (read_atomic_symbols s1) as [[symbols s2]|e2] eqn:RS; cbn [rbind].
  2: { intros H. injection H as <-. apply read_symbols_err in RS as (m & ->). exact I. }
  destruct (read_positions_from _ _ _ _) as [[p s3]|e3] eqn:RP; cbn [rbind]; [discriminate|]. intros H. injection H as <-.
  apply read_lattice_ok in RL as (scale & raw & A & B & C & D & ->).
  assert (Q : species_at (after_lines 5 u) 0 (numbers_of symbols) /\ s2 = after_lines 2 (after_lines 5 u)) by (apply read_symbols_ok; eauto).
  destruct Q as [Q ->]. rewrite after_after in RP. change (5 + 2)%nat with 7%nat in RP.
  assert (HD : header_of E u lat (numbers_of symbols)).
  { exists scale, raw. repeat split; auto. }
  apply read_positions_from_err in RP. destruct e3; simpl in RP; auto.
  - destruct RP as (N & k & MK & ST). destruct symbols; [|discriminate]. exists lat, k. split; [exact HD|]. split; [exact MK|exact ST].
  - destruct RP as (k & MK & ST & DD). exists lat, (numbers_of symbols), k. split; [exact HD|]. split; [exact MK|]. split; [exact ST|exact DD].
Qed.
